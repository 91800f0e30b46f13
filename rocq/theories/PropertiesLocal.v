(** C82: local training with data loader workers.  Model: LocalModel.v, vocabulary: SpecLocal.v. *)
From Verif Require Import Base MixtureKeyModel MixtureKeyProofs UtilsModel UtilsProofs ChunkGenModel SpecChunk ConcurrentModel
  ChunkGenProofs1 ChunkGenProofs2 ChunkGenProofs3 ChunkGenProofs4 ChunkGenProofs5 ChunkGenProofs6 ChunkGenProofs10 ChunkGenProofs11
  PropertiesChunk PropertiesConcurrent DistributorModel SpecDistributor LocalModel SpecLocal LocalProofs.
From Coq Require Import ZifyBool ZifyNat.
Open Scope Z_scope.

(** The situation of a local job: [q0] is the query result when the workers are started (any state reached by calls that
    delivered chunks), [cs] the chunks a single consumer would get from it until it gets nothing, [s] the distributor of
    the job for one group, one node and [nw] workers. *)
Record local_job (F fuel : nat) (idx : index) (order : list mkey) (h : heap) (q0 : qr) (cs : list rchunk) (nw : Z)
       (s : dist rchunk) : Prop := {
  lj_heap : heap_ok h;
  lj_query : exists h0 r0 son ops os0, qrun (S F) ops (qr_init idx order h0 r0 son) = (q0, os0) /\ Forall is_chunk os0;
  lj_single : exists qN, qrun (S F) (repeat (Next h) (length cs)) q0 = (qN, map NChunk cs)
    /\ (snd (qr_next (S F) h qN) = NNone \/ snd (qr_next (S F) h qN) = NStop);
  lj_fuel : (F + length cs <= fuel)%nat;
  lj_dist : exists cached calls, dist_init 1 1 nw cached calls = Ok s
}.

Lemma delivered_conv res : delivered (map (fun x : result => (fst (fst x), conv (snd x))) res) = chunks (map snd res).
Proof.
  unfold delivered, chunks. induction res as [|[[p t] o] res IH]; [reflexivity|]. cbn [map flat_map fst snd]. rewrite IH.
  destruct o; reflexivity.
Qed.

Lemma local_inv F fuel idx order h q0 cs nw s wid evs w res :
  local_job F fuel idx order h q0 cs nw s -> (forall p, 0 <= wid p < eff_workers nw) ->
  lrun (S fuel) h wid evs (lforked q0 s) = (w, res) ->
  (forall p o, In (p, o) res -> (exists c, o = LChunk c) \/ o = LEnd)
  /\ (exists k running, Permutation (delivered res ++ running) (firstn k cs)
        /\ (idle w -> running = []) /\ (some_stream_ended res -> k = length cs))
  /\ (forall p, subseq (delivered_to p res) cs).
Proof.
  intros [Hh (h0 & r0 & son & ops & os0 & Hrun & Hall) (qN & Hsingle & Hend) Hfuel (cached & calls & Hs)] Hwid H.
  assert (Hi : ready idx order r0 (qr_init idx order h0 r0 son) (match gen_init idx order with GChunk g => g | _ => mkG [] [] 0 0 0 [] None 0 0 0 end)).
  { constructor; reflexivity. }
  destruct (ready_run _ _ _ _ _ _ _ _ _ Hi Hrun Hall) as (g0 & r & Hr).
  destruct (ready_chain _ _ _ _ _ _ _ _ _ Hr Hsingle) as (gN & HrN & Hch & Hcnt).
  assert (HI : linv F idx order h r q0 qN gN cs (eff_workers nw) wid (lforked q0 s) []).
  { eapply linv_init; try eassumption. intros p. eapply wdist_init; [exact Hs|]. apply Hwid. }
  assert (HI' : linv F idx order h r q0 qN gN cs (eff_workers nw) wid w ([] ++ res)) by (eapply linv_run; eassumption).
  cbn [app] in HI'. destruct HI' as [(wo & rs & A1 & A2 & A3 & A4 & A5) D P Fu Er].
  split; [exact Er|]. split.
  - destruct A3 as [W1 W2 W3 (pend & P1 & P2 & P3 & P4)]. rewrite Forall_forall in W3.
    set (B := q_count q0) in *. set (N := Z.of_nat (length cs)) in *.
    set (ch := fun t => match nth_error cs (Z.to_nat (t - B)) with Some c => [c] | None => [] end).
    assert (E : chunks (map snd rs) = flat_map ch (filter (fun t => t <? B + N) (map res_t rs))).
    { clear - W3 Hend. induction rs as [|[[p' t'] o'] res IH]; [reflexivity|]. cbn [map filter]. change (res_t (p', t', o')) with t'. cbn [snd].
      destruct (W3 (p', t', o')) as (X1 & X2 & X3); [cbn; auto|]. cbn [res_t fst snd] in X1, X2, X3.
      assert (IH' : chunks (map snd res) = flat_map ch (filter (fun t => t <? B + N) (map res_t res))).
      { apply IH. intros x Hx; apply W3; cbn; auto. }
      unfold chunks in *. cbn [flat_map]. rewrite IH'. destruct (t' <? B + N) eqn:E; cbn [flat_map].
      - destruct X2 as (c & X4 & ->); [fold B N; lia|]. unfold ch at 2. fold B in X4. rewrite X4. reflexivity.
      - destruct o'; try reflexivity. exfalso. apply X3; [fold B N; lia|exact Hend|exact I]. }
    exists (Z.to_nat (Z.min (w_count wo) (B + N) - B)), (flat_map ch (filter (fun t => t <? B + N) (map snd pend))). split; [|split].
    + rewrite A4, delivered_conv, E, <- flat_map_app. rewrite (Permutation_flat_map ch (Permutation_app_comm _ _)).
      rewrite (Permutation_flat_map ch P3). unfold ch. rewrite nth_firstn_flat by (unfold N in *; lia). reflexivity.
    + intros Hidle. assert (pend = []) as ->; [|reflexivity]. destruct pend as [|[p t] pend]; [reflexivity|].
      exfalso. assert (Hin : In (p, t) ((p, t) :: pend)) by (cbn; auto). apply P2 in Hin. rewrite (proj2 (A2 p)), Hidle in Hin. discriminate.
    + intros He. specialize (Fu He). fold B N in Fu. unfold N in *. lia.
  - intros p. destruct (A5 p) as (k & K1 & Ks & _). eapply ss_firstn with (j := length cs) in Ks; [|lia].
    rewrite firstn_all in Ks. exact Ks.
Qed.

Lemma subseq_in {A} (a b : list A) x : subseq a b -> In x a -> In x b.
Proof. induction 1; cbn; [tauto|intros [-> |]; auto|auto]. Qed.

Lemma delivered_length res : ~ some_stream_ended res -> (forall p o, In (p, o) res -> (exists c, o = LChunk c) \/ o = LEnd) ->
  length (delivered res) = length res.
Proof.
  unfold some_stream_ended. induction res as [|[p o] res IH]; intros Hn He; [reflexivity|]. unfold delivered in *. cbn [flat_map snd].
  rewrite app_length, IH.
  - destruct (He p o) as [[c ->]| ->]; [left; reflexivity|reflexivity|]. exfalso. apply Hn. exists p. left. reflexivity.
  - intros (p' & Hin). apply Hn. exists p'. right. exact Hin.
  - intros p' o' Hin. apply (He p' o'). right. exact Hin.
Qed.

(** Forked workers, any number of processes, any interleaving of their steps.
    - a stream delivers chunks and then ends: it never raises;
    - what one worker gets are chunks of the query, in the order of the query;
    - all streams together have delivered each chunk at most once: the chunks delivered, together with those being
      fetched, are the first chunks of the query, each once; when no fetch is going on there are no others;
    - a stream ends only when every chunk of the query has been delivered or is being fetched: if one stream has ended
      and no fetch is going on, the streams delivered exactly the chunks of the query;
    - the streams do end: after more results than the query has chunks one of them has. *)
Theorem C82_forked_partial : forall F fuel idx order h q0 cs nw s wid evs w res,
  local_job F fuel idx order h q0 cs nw s -> (forall p, 0 <= wid p < eff_workers nw) ->
  lrun (S fuel) h wid evs (lforked q0 s) = (w, res) ->
  (forall p o, In (p, o) res -> (exists c, o = LChunk c /\ In c cs) \/ o = LEnd)
  /\ (forall p, subseq (delivered_to p res) cs)
  /\ (exists k fetching, Permutation (delivered res ++ fetching) (firstn k cs) /\ (idle w -> fetching = [])
        /\ (some_stream_ended res -> k = length cs))
  /\ (some_stream_ended res -> idle w -> Permutation (delivered res) cs)
  /\ ((length cs < length res)%nat -> some_stream_ended res).
Proof.
  intros F fuel idx order h q0 cs nw s wid evs w res HJ Hwid H.
  destruct (local_inv _ _ _ _ _ _ _ _ _ _ _ _ _ HJ Hwid H) as (I1 & (k & run & I2 & I3 & I4) & I5).
  split; [|split; [exact I5|split; [exists k, run; auto|split]]].
  - intros p o Hin. destruct (I1 p o Hin) as [[c ->]|E]; [left; exists c; split; [reflexivity|]|right; exact E].
    apply (subseq_in _ _ _ (I5 p)). unfold delivered_to, delivered. apply in_flat_map. exists (p, LChunk c). split; [|cbn; auto].
    apply filter_In. split; [exact Hin|]. cbn [fst]. apply Nat.eqb_refl.
  - intros He Hi. rewrite (I3 Hi), app_nil_r, (I4 He), firstn_all in I2. exact I2.
  - intros Hl. destruct (existsb (fun x => match snd x with LEnd => true | _ => false end) res) eqn:E.
    + apply existsb_exists in E as ([p o] & Hin & Eo). cbn [snd] in Eo. destruct o; try discriminate. exists p. exact Hin.
    + exfalso. assert (Hn : ~ some_stream_ended res).
      { intros (p & Hin). assert (X : existsb (fun x : nat * lout => match snd x with LEnd => true | _ => false end) res = true); [|congruence].
        apply existsb_exists. exists (p, LEnd). auto. }
      pose proof (delivered_length res Hn I1) as El. apply Permutation_length in I2. rewrite app_length in I2.
      rewrite firstn_length in *. lia.
Qed.

(** A second pass: once a stream has ended (and no fetch is going on), further workers forked from the same parent, and
    the old ones, deliver nothing more. *)
Theorem C82_second_pass_partial : forall F fuel idx order h q0 cs nw s wid evs1 w1 res1 evs2 w2 res2,
  local_job F fuel idx order h q0 cs nw s -> (forall p, 0 <= wid p < eff_workers nw) ->
  lrun (S fuel) h wid evs1 (lforked q0 s) = (w1, res1) -> some_stream_ended res1 -> idle w1 ->
  lrun (S fuel) h wid evs2 w1 = (w2, res2) -> delivered res2 = [] /\ forall p o, In (p, o) res2 -> o = LEnd.
Proof.
  intros F fuel idx order h q0 cs nw s wid evs1 w1 res1 evs2 w2 res2 HJ Hwid H1 He Hi H2.
  assert (H : lrun (S fuel) h wid (evs1 ++ evs2) (lforked q0 s) = (w2, res1 ++ res2)).
  { clear - H1 H2. revert H1. generalize (lforked q0 s) as w0. revert w1 res1 H2.
    induction evs1 as [|ev evs1 IH]; intros w1 res1 H2 w0 H1; cbn [app lrun] in *.
    - injection H1 as <- <-. exact H2.
    - destruct (lstep (S fuel) h wid ev w0) as [wa ra]. destruct (lrun (S fuel) h wid evs1 wa) as [wb rb] eqn:E.
      injection H1 as <- <-. rewrite (IH _ _ H2 _ E), app_assoc. reflexivity. }
  destruct (C82_forked_partial _ _ _ _ _ _ _ _ _ _ _ _ _ HJ Hwid H1) as (_ & _ & _ & X & _). specialize (X He Hi).
  destruct (C82_forked_partial _ _ _ _ _ _ _ _ _ _ _ _ _ HJ Hwid H) as (I1 & _ & (k & run & Y & _) & _).
  assert (E : delivered res2 = []).
  { apply Permutation_length in X, Y. unfold delivered in *. rewrite flat_map_app, !app_length in Y. rewrite firstn_length in *.
    destruct (flat_map _ res2); [reflexivity|]. cbn [length] in Y. lia. }
  split; [exact E|]. intros p o Hin. destruct (I1 p o) as [(c & -> & _)|Ho]; [apply in_or_app; auto| |exact Ho].
  exfalso. assert (Hc : In c (delivered res2)) by (apply in_flat_map; exists (p, LChunk c); cbn; auto). rewrite E in Hc. destruct Hc.
Qed.

(** Spawned workers of a job that has delivered nothing yet: every one of them delivers the whole query, so with two
    workers every sample is used twice. *)
Theorem C82_spawned_refuted : forall F fuel idx order h h0 r0 son cs nw s wid evs w res,
  let q0 := qr_init idx order h0 r0 son in
  local_job F fuel idx order h q0 cs nw s -> (forall p, 0 <= wid p < eff_workers nw) ->
  lrun (S fuel) h wid evs (lspawned q0 s) = (w, res) -> some_stream_ended res -> idle w -> Permutation (delivered res) cs.
Proof.
  intros F fuel idx order h h0 r0 son cs nw s wid evs w res q0 HJ Hwid H He Hi. change (lspawned q0 s) with (lforked q0 s) in H.
  destruct (C82_forked_partial _ _ _ _ _ _ _ _ _ _ _ _ _ HJ Hwid H) as (_ & _ & _ & X & _). exact (X He Hi).
Qed.

(** Spawned workers of a job that has delivered something: the first request fails. *)
Theorem C82_spawned_late_refuted : forall F fuel idx order h q0 cs nw s wid p,
  local_job F fuel idx order h q0 cs nw s -> (forall p, 0 <= wid p < eff_workers nw) -> q_nret q0 <> 0 ->
  snd (lrun (S fuel) h wid [Take p; Finish p] (lspawned q0 s)) = [(p, LRaise AssertionError)].
Proof.
  intros F fuel idx order h q0 cs nw s wid p [_ _ _ _ (cached & calls & Hs)] Hwid Hn.
  assert (D : wdist_ok (eff_workers nw) (wid p) (fork s)) by (eapply wdist_init; [exact Hs|apply Hwid]).
  cbn [lrun lstep lspawned lw_procs l_pend l_done l_dist l_qr]. rewrite (wdist_asks _ _ _ D).
  cbn [lw_count set_lproc lw_procs]. rewrite Nat.eqb_refl. cbn [l_pend l_qr l_dist].
  unfold qr_next. cbn [set_count unpickled q_gen q_nret q_count q_idx q_order q_self]. replace (q_nret q0 =? 0) with false by lia.
  cbn [negb andb].
  destruct (wdist_next _ _ _ (fun _ => to_qout (NErr AssertionError)) D) as (s' & E & _). rewrite E. reflexivity.
Qed.
Print Assumptions C82_forked_partial.
Print Assumptions C82_second_pass_partial.
Print Assumptions C82_spawned_refuted.
Print Assumptions C82_spawned_late_refuted.

(** The query of PropertiesChunk.v has three chunks; two workers. *)
Example C82_job : exists c0 c1 c2 s, local_job 19 22 idx_ex order_ex heap_ex (qr_init idx_ex order_ex heap_ex 0 false) [c0; c1; c2] 2 s
  /\ c0 <> c1 /\ c1 <> c2 /\ c0 <> c2
  /\ snd (lrun 23 heap_ex (fun p => Z.of_nat p mod 2) [Take 0; Take 1; Finish 1; Take 1; Finish 0; Finish 1; Take 0; Finish 0; Take 1; Finish 1]
              (lforked (qr_init idx_ex order_ex heap_ex 0 false) s))
     = [(1%nat, LChunk c1); (0%nat, LChunk c0); (1%nat, LChunk c2); (0%nat, LEnd); (1%nat, LEnd)]
  /\ snd (lrun 23 heap_ex (fun p => Z.of_nat p mod 2) [Take 0; Finish 0] (lspawned (qr_init idx_ex order_ex heap_ex 0 false) s)) = [(0%nat, LChunk c0)]
  /\ snd (lrun 23 heap_ex (fun p => Z.of_nat p mod 2) [Take 1; Finish 1] (lspawned (qr_init idx_ex order_ex heap_ex 0 false) s)) = [(1%nat, LChunk c0)].
Proof.
  do 4 eexists. split; [constructor|].
  - exact heap_ex_ok.
  - exists heap_ex, 0, false, [], []. split; [reflexivity|constructor].
  - eexists. split; [vm_compute; reflexivity|]. left. vm_compute. reflexivity.
  - cbn. lia.
  - exists false, 0%nat. reflexivity.
  - split; [vm_compute; discriminate|]. split; [vm_compute; discriminate|]. split; [vm_compute; discriminate|].
    split; [vm_compute; reflexivity|]. split; vm_compute; reflexivity.
Qed.
