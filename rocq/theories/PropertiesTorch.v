(** Training over checkpoints and restarts (C62). *)
From Verif Require Import Base MixtureKeyModel UtilsModel ChunkGenModel DistributorModel SpecDistributor DistributorProofs
  DistributorProofs2 DistributorProofs8 DistributorProofs9 TorchModel SpecTorch TorchProofs TorchProofs2.
From Coq Require Import ZifyBool ZifyNat.
Open Scope Z_scope.

(** ** C62 *)
(** Over any number of checkpoints taken at good moments and restarts, in every interleaving of workers, trainers and
    reports: the chunks the query has given are dealt out to the (group, worker) pairs ([F]); what the trainer of every
    node of the group has seen of the worker is, up to repeating the last sample after each restart, a first part of the
    samples of these chunks in order, nothing left out, and all of them once the worker has reached its end. *)
Theorem C62_training_partial {C X} (src : nat -> qout C) (items : C -> list X) dp nodes nw cached s W lives reports :
  training src items dp nodes nw cached s W lives reports ->
  exists F : Z -> Z -> list C,
    Permutation (flat_map (fun g => flat_map (fun w => F g w) (zrange 0 (eff_workers nw))) (zrange 0 dp)) (taken src (d_calls s))
    /\ forall g n w, valid_slot dp nodes (eff_workers nw) g n w ->
         let seen := lives (g, n, w) ++ [took (W (g, n, w))] in
         chained [] seen
         /\ (exists rest, joined seen ++ rest = flat_map items (F g w))
         /\ (at_end src (g, n, w) s W -> joined seen = flat_map items (F g w)).
Proof.
  intros H. destruct (training_inv src items dp nodes nw cached s W lives reports H) as (m0 & B & pend & D & P & F & m & HL & HW).
  exists (fun g w => map fst (F g w)).
  pose proof (l_inv _ _ _ _ _ _ _ _ _ _ _ _ _ HL) as Hinv.
  split; [exact (i_taken _ _ _ _ _ _ _ _ Hinv)|].
  intros g n w Hv. destruct (HW g n w Hv) as [HWs Hch]. cbv zeta.
  assert (Hsam : forall l : list (C * Z), flat_map items (map fst l) = samples_of items l).
  { intros l. unfold samples_of. rewrite !flat_map_concat_map, map_map. reflexivity. }
  pose proof (took_follows items _ _ _ _ _ HWs) as Hfol. rewrite joined_snoc, Hsam.
  split; [apply chained_snoc; split; [exact Hch|exact Hfol]|].
  destruct (existsb (p3_eqb (g, n, w)) pend) eqn:Ep.
  - destruct (w_pend _ _ _ _ _ _ HWs eq_refl) as (H1 & H2 & H3 & H4 & c & i & Hn & Hi & Ha).
    assert (Et : took (W (g, n, w)) = []) by (unfold took; rewrite H4; apply firstn_nil).
    rewrite Et, continue_nil. split.
    + exists (skipn (S i) (items c) ++ samples_of items (skipn (S (P g n w)) (F g w))).
      rewrite Ha, app_assoc, <- (app_assoc _ (firstn _ _)), firstn_skipn, <- (samples_S items _ _ _ _ Hn), <- samples_app, firstn_skipn.
      reflexivity.
    + intros (_ & _ & s' & Hs). exfalso.
      destruct (req_step src _ _ _ _ _ _ _ _ _ _ _ _ _ Hinv Hs) as (P' & F' & _ & Hres & _).
      assert (P g n w <> length (F g w)).
      { intros E. assert (nth_error (F g w) (P g n w) = None) by (apply nth_error_None; lia). congruence. }
      inversion Hres; subst; congruence.
  - destruct (w_run _ _ _ _ _ _ HWs eq_refl) as (H1 & H2 & _). split.
    + unfold took. destruct (continue_prefix (joined (lives (g, n, w))) (firstn (t_seen (W (g, n, w))) (t_out (W (g, n, w))))
        (skipn (t_seen (W (g, n, w))) (t_out (W (g, n, w))) ++ map snd (t_rest (W (g, n, w))))) as [r Hr].
      rewrite app_assoc, firstn_skipn in Hr. rewrite H1 in Hr. exists (r ++ samples_of items (skipn (P g n w) (F g w))).
      rewrite app_assoc, Hr, <- samples_app, firstn_skipn. reflexivity.
    + intros (E1 & E2 & s' & Hs).
      destruct (req_step src _ _ _ _ _ _ _ _ _ _ _ _ _ Hinv Hs) as (P' & F' & _ & Hres & _).
      assert (HP : P g n w = length (F g w)) by (inversion Hres; subst; congruence).
      rewrite E1, HP, firstn_all in H1. cbn [map] in H1. rewrite app_nil_r in H1. unfold took. rewrite E2, firstn_all. exact H1.
Qed.
Print Assumptions C62_training_partial.

(** ** What goes wrong otherwise *)
Section Examples.
  Definition run2 {C X} (src : nat -> qout C) (items : C -> list X) (dp nodes nw : Z) (ops1 ops2 : list top) :=
    match dist_init dp nodes nw true 0 with
    | Err _ => None
    | Ok s0 =>
        let r1 := trun src items s0 (fun _ => fresh_worker) ops1 in
        match rev (snd r1) with
        | (o, ECk (CkId id) (Some j)) :: _ =>
            match adjusted j with
            | Err _ => None
            | Ok v =>
                match from_checkpoint (mkDisk (Full tt) [(id, (Full v, Full (v_calls (j_state j))))]) id with
                | Err _ => None
                | Ok s2 => let r2 := trun src items s2 (fun _ => fresh_worker) ops2 in Some (snd (fst r1), fst (fst r2), snd (fst r2))
                end
            end
        | _ => None
        end
    end.
  Definition ends_ok (src : nat -> qout Z) (t : p3) (b a : list Z) (r : option ((p3 -> worker Z) * dist Z * (p3 -> worker Z))) : bool :=
    match r with
    | None => false
    | Some (W1, s, W) =>
        (if list_eq_dec Z.eq_dec (took (W1 t)) b then true else false) && (if list_eq_dec Z.eq_dec (took (W t)) a then true else false)
        && match t_rest (W t) with [] => true | _ => false end && Nat.eqb (t_seen (W t)) (length (t_out (W t)))
        && match t with (g, n, w) => match snd (next_chunk_for src g n w true s) with DStop => true | _ => false end end
    end.
  Lemma run2_ex src (items : Z -> list Z) dp nodes nw ops1 ops2 t b a :
    ends_ok src t b a (run2 src items dp nodes nw ops1 ops2) = true ->
    exists before after s W, interrupted src items dp nodes nw ops1 ops2 before after s W /\ at_end src t s W
      /\ before t = b /\ after t = a.
  Proof.
    unfold run2. destruct (dist_init dp nodes nw true 0) as [s0|] eqn:E0; [|discriminate]. cbv zeta.
    destruct (trun src items s0 _ ops1) as [[s1 W1] es] eqn:E1. cbn [fst snd].
    destruct (rev es) as [|[o e] es'] eqn:Er; [discriminate|]. destruct e as [|[id|] [j|]|]; try discriminate.
    destruct (adjusted j) as [v|] eqn:Ea; [|discriminate].
    set (k := mkDisk (Full tt) [(id, (Full v, Full (v_calls (j_state j))))]).
    destruct (from_checkpoint k id) as [s2|] eqn:Ef; [|discriminate].
    destruct (trun src items s2 _ ops2) as [[s W] es2] eqn:E2. cbn [fst snd ends_ok].
    destruct t as [[g n] w].
    destruct (list_eq_dec Z.eq_dec (took (W1 (g, n, w))) b) as [Hb|]; [|discriminate].
    destruct (list_eq_dec Z.eq_dec (took (W (g, n, w))) a) as [Ha|]; [|discriminate].
    destruct (t_rest (W (g, n, w))) eqn:Et; [|discriminate].
    destruct (Nat.eqb_spec (t_seen (W (g, n, w))) (length (t_out (W (g, n, w))))) as [Hs|]; [|discriminate].
    destruct (next_chunk_for src g n w true s) as [s' r] eqn:En. cbn [snd]. destruct r; try discriminate. intros _.
    exists (fun t => took (W1 t)), (fun t => took (W t)), s, W. split; [|split; [|auto]].
    - exists s0, s1, W1, (rev es'), o, id, j, v, k, s2, es2. split; [exact E0|]. split.
      + rewrite E1. do 2 f_equal. rewrite <- (rev_involutive es), Er. reflexivity.
      + split; [exact Ea|]. split; [reflexivity|]. split; [cbn; rewrite Z.eqb_refl; reflexivity|]. split; [exact Ef|]. split; [exact E2|]. split; reflexivity.
    - split; [exact Et|]. split; [exact Hs|]. exists s'. exact En.
  Qed.

  (** Chunk [c] has the samples 10 c, 10 c + 1, 10 c + 2; the query gives [k] chunks 1, 2, ..., k. *)
  Definition t_items (c : Z) : list Z := [10 * c; 10 * c + 1; 10 * c + 2].
  Definition t_src (k i : nat) : qout Z := if (i <? k)%nat then QChunk (Z.of_nat i + 1) else QStop.
  (** A worker yields a sample and the trainer takes it. *)
  Definition yt (g n w : Z) : list top := [TYield g n w; TTake g n w].
  Fixpoint times {A} (k : nat) (l : list A) : list A := match k with O => [] | S k' => l ++ times k' l end.

  (** Single process, one group, one node, data loading in the trainer's process: the sample seen last is seen again. *)
  Theorem C62_repeats_last_refuted : exists ops1 ops2 before after s W,
    interrupted (t_src 1) t_items 1 1 0 ops1 ops2 before after s W /\ at_end (t_src 1) (0, 0, 0) s W
    /\ before (0, 0, 0) = [10; 11] /\ after (0, 0, 0) = [11; 12].
  Proof.
    exists ([TFetch 0 0 0] ++ times 2 (yt 0 0 0) ++ [TReport 0 0 false false]), ([TFetch 0 0 0] ++ times 2 (yt 0 0 0)).
    apply run2_ex. vm_compute. reflexivity.
  Qed.

  (** A worker that has asked for its next chunk but not yielded from it: its status is still the index in the chunk
      before, and the first samples of the new chunk are never seen. *)
  Theorem C62_new_chunk_refuted : exists ops1 ops2 before after s W,
    interrupted (t_src 2) t_items 1 1 1 ops1 ops2 before after s W /\ at_end (t_src 2) (0, 0, 0) s W
    /\ before (0, 0, 0) = [10; 11; 12] /\ after (0, 0, 0) = [22].
  Proof.
    exists ([TFetch 0 0 0] ++ times 3 (yt 0 0 0) ++ [TFetch 0 0 0; TReport 0 0 true false]), ([TFetch 0 0 0] ++ times 3 (yt 0 0 0)).
    apply run2_ex. vm_compute. reflexivity.
  Qed.

  (** Samples a data loader worker has yielded but the trainer has not taken yet are never seen. *)
  Theorem C62_prefetched_refuted : exists ops1 ops2 before after s W,
    interrupted (t_src 1) t_items 1 1 1 ops1 ops2 before after s W /\ at_end (t_src 1) (0, 0, 0) s W
    /\ before (0, 0, 0) = [10] /\ after (0, 0, 0) = [12].
  Proof.
    exists ([TFetch 0 0 0] ++ times 3 [TYield 0 0 0] ++ [TTake 0 0 0; TReport 0 0 true false]), ([TFetch 0 0 0] ++ times 1 (yt 0 0 0)).
    apply run2_ex. vm_compute. reflexivity.
  Qed.

  (** Two nodes of a group at different samples: the one behind never sees the samples in between. *)
  Theorem C62_drift_refuted : exists ops1 ops2 before after s W,
    interrupted (t_src 1) t_items 1 2 1 ops1 ops2 before after s W /\ at_end (t_src 1) (0, 1, 0) s W
    /\ before (0, 1, 0) = [10] /\ after (0, 1, 0) = [12].
  Proof.
    exists ([TFetch 0 0 0; TFetch 0 1 0] ++ times 3 (yt 0 0 0) ++ yt 0 1 0 ++ [TReport 0 0 true false; TReport 0 1 true false]),
           ([TFetch 0 0 0; TFetch 0 1 0] ++ times 1 (yt 0 1 0)).
    apply run2_ex. vm_compute. reflexivity.
  Qed.

  (** A node whose workers go on to the next chunk after it has reported: its old status is applied to the new chunk. *)
  Theorem C62_moved_on_refuted : exists ops1 ops2 before after s W,
    interrupted (t_src 2) t_items 1 2 1 ops1 ops2 before after s W /\ at_end (t_src 2) (0, 1, 0) s W
    /\ before (0, 1, 0) = [10; 11; 12; 20] /\ after (0, 1, 0) = [22].
  Proof.
    exists ([TFetch 0 0 0; TFetch 0 1 0] ++ times 3 (yt 0 0 0) ++ times 3 (yt 0 1 0) ++ [TReport 0 0 true false; TFetch 0 0 0; TFetch 0 1 0]
              ++ yt 0 1 0 ++ yt 0 0 0 ++ [TReport 0 1 true false]),
           ([TFetch 0 0 0; TFetch 0 1 0] ++ times 2 (yt 0 1 0)).
    apply run2_ex. vm_compute. reflexivity.
  Qed.

  (** A job as in [C62_training_partial]: two nodes, two workers, a restart in the middle of the chunks. *)
  Lemma training_run {C X} (src : nat -> qout C) (items : C -> list X) dp nodes nw cached ops : forall s W lives reports s' W' es,
    training src items dp nodes nw cached s W lives reports -> trun src items s W ops = (s', W', es) ->
    Forall (fun o => match o with TReport g n _ _ => 0 <= g < dp /\ 0 <= n < nodes | _ => True end) ops ->
    training src items dp nodes nw cached s' W' lives (round reports (map fst es) (map snd es)).
  Proof.
    induction ops as [|o ops IH]; intros s W lives reports s' W' es Ht Hr Hf; cbn [trun] in Hr.
    - injection Hr as <- <- <-. exact Ht.
    - destruct (tstep src items s W o) as [[s1 W1] e1] eqn:E1. destruct (trun src items s1 W1 ops) as [[s2 W2] e2] eqn:E2.
      injection Hr as <- <- <-.
      assert (H1 : training src items dp nodes nw cached s1 W1 lives (round reports (map fst e1) (map snd e1))).
      { eapply tr_step; [exact Ht|exact E1|]. intros g n srv qd ->. exact (Forall_inv Hf). }
      specialize (IH _ _ _ _ _ _ _ H1 E2 (Forall_inv_tail Hf)).
      assert (Eapp : forall acc, round acc (map fst (e1 ++ e2)) (map snd (e1 ++ e2))
                       = round (round acc (map fst e1) (map snd e1)) (map fst e2) (map snd e2)).
      { intros acc. clear -e1. revert acc. induction e1 as [|[a b] e1 IHe]; intros acc; [reflexivity|]. cbn [app map fst snd round].
        destruct a as [g n w d|g n st srv qd|]; cbn [round]; try apply IHe.
        destruct b as [o|[id|e] [j|]|]; cbn [round]; try apply IHe; destruct e; apply IHe. }
      rewrite Eapp. exact IH.
  Qed.

  Definition ex_ops : list top :=
    [TFetch 0 0 0; TFetch 0 0 1; TFetch 0 1 0; TFetch 0 1 1]
    ++ times 2 (yt 0 0 0) ++ times 1 (yt 0 0 1) ++ times 1 (yt 0 1 1) ++ times 2 (yt 0 1 0) ++ [TReport 0 0 true false].
  Definition ex_more : list top :=
    [TFetch 0 0 0; TFetch 0 0 1; TFetch 0 1 0; TFetch 0 1 1] ++ times 2 (yt 0 1 0) ++ [TFetch 0 1 0] ++ times 1 (yt 0 1 0).
  Definition ex_s0 : dist Z := match dist_init 1 2 2 true 0 with Ok s => s | Err _ => fork (mkDist 0 0 0 0 false 0 [] [] [] [] [] 0 None [] false) end.
  Definition ex_r1 := trun (t_src 4) t_items ex_s0 (fun _ => fresh_worker) ex_ops.
  Definition ex_ck := checkpoint 0 1 (statuses (snd (fst ex_r1)) 2 0 1) true false (fst (fst ex_r1)).
  Definition ex_job : job Z := match snd ex_ck with Some j => j | None => mkJob 0 (mkSaved [] [] [] 0 0 0 0 0) [] false end.
  Definition ex_saved : saved Z := match adjusted ex_job with Ok v => v | Err _ => mkSaved [] [] [] 0 0 0 0 0 end.
  Definition ex_disk : disk Z := mkDisk (Full tt) [(1, (Full ex_saved, Full (v_calls (j_state ex_job))))].
  Definition ex_s2 : dist Z := match from_checkpoint ex_disk 1 with Ok s => s | Err _ => ex_s0 end.
  Example C62_training_example : exists s W lives reports,
    training (t_src 4) t_items 1 2 2 true s W lives reports /\
    lives (0, 1, 0) = [[10; 11]] /\ took (W (0, 1, 0)) = [11; 12; 30] /\ joined (lives (0, 1, 0) ++ [took (W (0, 1, 0))]) = [10; 11; 12; 30].
  Proof.
    assert (H1 : training (t_src 4) t_items 1 2 2 true (fst (fst ex_r1)) (snd (fst ex_r1)) (fun _ => [])
                   (round [] (map fst (snd ex_r1)) (map snd (snd ex_r1)))).
    { apply (training_run (t_src 4) t_items 1 2 2 true ex_ops ex_s0 (fun _ => fresh_worker)).
      - apply tr_start. reflexivity.
      - unfold ex_r1. destruct (trun _ _ _ _ _) as [[? ?] ?]. reflexivity.
      - unfold ex_ops. repeat (constructor; [cbn; lia || exact I|]). constructor. }
    set (rep := round [] (map fst (snd ex_r1)) (map snd (snd ex_r1))) in *.
    assert (H2 : training (t_src 4) t_items 1 2 2 true ex_s2 (fun _ => fresh_worker) (fun t => [took (snd (fst ex_r1) t)]) []).
    { refine (tr_restart (t_src 4) t_items 1 2 2 true _ _ _ rep 0 1 true false (fst (fst ex_ck)) 1 ex_job ex_saved ex_disk ex_s2 H1 _ _ _ _ _ _ _ _);
        try lia; try (vm_compute; reflexivity).
      split.
      - assert (Erep : rep = [((0, 0), [1; 0])]) by (vm_compute; reflexivity). rewrite Erep. intros g n st [H|[]]. injection H as <- <- <-.
        vm_compute. reflexivity.
      - intros g n w (Hg & Hn & Hw). change (eff_workers 2) with 2 in Hw.
        assert (g = 0) as -> by lia. assert (n = 0 \/ n = 1) as [-> | ->] by lia; assert (w = 0 \/ w = 1) as [-> | ->] by lia.
        all: split; [vm_compute; reflexivity|]; split; [right; vm_compute; lia|].
        all: intros n' Hn'; assert (n' = 0 \/ n' = 1) as [-> | ->] by lia; vm_compute; reflexivity. }
    set (r := trun (t_src 4) t_items ex_s2 (fun _ => fresh_worker) ex_more).
    exists (fst (fst r)), (snd (fst r)), (fun t => [took (snd (fst ex_r1) t)]), (round [] (map fst (snd r)) (map snd (snd r))).
    split; [|vm_compute; repeat split; reflexivity].
    apply (training_run (t_src 4) t_items 1 2 2 true ex_more ex_s2 (fun _ => fresh_worker)); [exact H2| |].
    - unfold r. destruct (trun _ _ _ _ _) as [[? ?] ?]. reflexivity.
    - unfold ex_more. repeat (constructor; [cbn; lia || exact I|]). constructor.
  Qed.
End Examples.
Print Assumptions C62_repeats_last_refuted.
Print Assumptions C62_new_chunk_refuted.
Print Assumptions C62_prefetched_refuted.
Print Assumptions C62_drift_refuted.
Print Assumptions C62_moved_on_refuted.
Print Assumptions C62_training_example.
