(** C85: the consumer's random numbers.  Model: RngModel.v. *)
From Verif Require Import Base MixtureKeyModel MixtureKeyProofs ChunkGenModel ReproModel ReproProofs ResultChunkModel RngModel.
Open Scope Z_scope.

(** The random numbers, and the samples, among what a consumer saw. *)
Definition numbers {X} (os : list (@sout X)) : list (@sout X) :=
  filter (fun o => match o with DrewPy _ | DrewNp _ => true | _ => false end) os.
Definition taken {X} (os : list (@sout X)) : list (@sout X) :=
  filter (fun o => match o with DrewPy _ | DrewNp _ => false | _ => true end) os.
(** The events that take a sample, and those that draw a number. *)
Definition takes (evs : list sevent) : list sevent := filter (fun e => match e with TakeSample => true | _ => false end) evs.
Definition draws (evs : list sevent) : list sevent := filter (fun e => match e with TakeSample => false | _ => true end) evs.

Section C85.
  Context {G N X : Type} (py_seed : Z -> G) (np_seed : Z -> N) (py_shuffled : nat -> G -> G) (py_rand : G -> Z * G) (np_rand : N -> Z * N)
    (xxh64 : str -> Z) (count_str : mkey * Z -> str).
  Notation srun := (srun (X:=X) py_seed np_seed py_shuffled py_rand np_rand xxh64 count_str).
  Notation sstep := (sstep (X:=X) py_seed np_seed py_shuffled py_rand np_rand xxh64 count_str).
  Notation next_sample := (next_sample (X:=X) py_seed np_seed py_shuffled xxh64 count_str).
  Notation start_chunk := (start_chunk (X:=X) py_seed np_seed py_shuffled xxh64 count_str).

  Lemma next_sample_out rest : forall w w', snd (next_sample w rest) = snd (next_sample w' rest)
    /\ s_cur (fst (next_sample w rest)) = s_cur (fst (next_sample w' rest))
    /\ s_rest (fst (next_sample w rest)) = s_rest (fst (next_sample w' rest)).
  Proof.
    induction rest as [|c rest IH]; intros w w'; cbn [RngModel.next_sample]; cbv zeta; [auto|].
    destruct (sc_samples c) as [|x xs]; [apply IH|auto].
  Qed.

  Lemma next_sample_kind rest : forall w, snd (next_sample w rest) = Ended \/ exists x, snd (next_sample w rest) = Sample x.
  Proof.
    induction rest as [|c rest IH]; intros w; cbn [RngModel.next_sample]; cbv zeta; [auto|].
    destruct (sc_samples c) as [|x xs]; [apply IH|right; exists x; reflexivity].
  Qed.

  (** What is streamed never depends on the generators of the consumer, nor on the numbers it draws in between. *)
  Theorem C85_samples : forall evs w w' cur rest,
    taken (srun evs (mkSS w cur rest)) = srun (takes evs) (mkSS w' cur rest).
  Proof.
    intros evs. induction evs as [|[| |] evs IH]; intros w w' cur rest; cbn [takes filter RngModel.srun]; [reflexivity| | |].
    - cbn [RngModel.sstep s_cur s_rng s_rest]. destruct cur as [|x xs].
      + destruct (next_sample_out rest w w') as (E1 & E2 & E3). pose proof (next_sample_kind rest w') as K.
        destruct (next_sample w rest) as [[w1 c1 r1] o1].
        destruct (next_sample w' rest) as [[w2 c2 r2] o2]. cbn [fst snd s_cur s_rest] in *. subst.
        unfold taken in *. cbn [filter]. destruct K as [-> |[x ->]]; f_equal; apply IH.
      + unfold taken. cbn [filter]. f_equal. apply IH.
    - cbn [RngModel.sstep s_rng]. destruct (py_rand (fst w)) as [z g]. unfold taken. cbn [filter]. apply IH.
    - cbn [RngModel.sstep s_rng]. destruct (np_rand (snd w)) as [z n]. unfold taken. cbn [filter]. apply IH.
  Qed.

  (** Within a chunk: the numbers the consumer draws are those its generators give without streaming. *)
  Theorem C85_within_chunk_partial : forall evs w cur rest rest', (length (takes evs) <= length cur)%nat ->
    numbers (srun evs (mkSS w cur rest)) = srun (draws evs) (mkSS w [] rest').
  Proof.
    intros evs. induction evs as [|[| |] evs IH]; intros w cur rest rest' Hl; cbn [draws takes filter RngModel.srun length] in *; [reflexivity| | |].
    - destruct cur as [|x xs]; cbn [length] in Hl; [lia|]. cbn [RngModel.sstep s_cur s_rng s_rest]. unfold numbers. cbn [filter].
      apply IH. unfold takes. lia.
    - cbn [RngModel.sstep s_rng s_cur s_rest]. destruct (py_rand (fst w)) as [z g]. unfold numbers. cbn [filter]. f_equal. apply IH, Hl.
    - cbn [RngModel.sstep s_rng s_cur s_rest]. destruct (np_rand (snd w)) as [z n]. unfold numbers. cbn [filter]. f_equal. apply IH, Hl.
  Qed.

  Lemma start_forgets c w w' : start_chunk c w = start_chunk c w'.
  Proof. unfold RngModel.start_chunk. cbv zeta. destruct (sc_mode c); reflexivity. Qed.

  (** Starting a chunk forgets the state of the consumer's generators: whatever the consumer seeded them with and drew
      before, it draws the same numbers from there on. *)
  Theorem C85_reseeded_refuted : forall evs w w' c rest,
    srun (TakeSample :: evs) (mkSS w [] (c :: rest)) = srun (TakeSample :: evs) (mkSS w' [] (c :: rest)).
  Proof.
    intros evs w w' c rest. cbn [RngModel.srun RngModel.sstep s_cur s_rng s_rest RngModel.next_sample]. cbv zeta.
    rewrite (start_forgets c w w'). reflexivity.
  Qed.

  (** Chunks of the same keys (and, per window, the same numbers per key), in any order of the index. *)
  Definition same_shape (c c' : @schunk X) : Prop :=
    match sc_mode c, sc_mode c' with
    | Overall, Overall => Permutation (map fst (sc_index c)) (map fst (sc_index c'))
    | Window n, Window n' => Permutation n n'
    | _, _ => False
    end.

  (** And with each chunk of the same keys the same numbers come again: in one process for each of its chunks, and in
      different processes whatever their seeds. *)
  Theorem C85_repeated_refuted : forall evs w w' c c' rest rest',
    same_shape c c' -> (length (takes evs) < length (sc_samples c))%nat -> (length (takes evs) < length (sc_samples c'))%nat ->
    numbers (srun (TakeSample :: evs) (mkSS w [] (c :: rest))) = numbers (srun (TakeSample :: evs) (mkSS w' [] (c' :: rest'))).
  Proof.
    intros evs w w' c c' rest rest' Hs H1 H2. cbn [RngModel.srun RngModel.sstep s_cur s_rng s_rest RngModel.next_sample]. cbv zeta.
    assert (E : start_chunk c w = start_chunk c' w').
    { rewrite (start_forgets c' w' w). unfold same_shape, RngModel.start_chunk in *. destruct (sc_mode c) as [|n], (sc_mode c') as [|n']; try contradiction; cbv zeta.
      - unfold seed_of. rewrite (isort_str_ext _ _ (Permutation_map key_str Hs)). apply Permutation_length in Hs. rewrite !map_length in Hs. rewrite Hs. reflexivity.
      - rewrite (isort_str_ext _ _ (Permutation_map count_str Hs)). rewrite (Permutation_length Hs). reflexivity. }
    rewrite E. destruct (sc_samples c) as [|x xs], (sc_samples c') as [|x' xs']; cbn [length] in *; try lia.
    unfold numbers. cbn [filter]. fold (numbers (X:=X)).
    change (numbers (srun evs (mkSS (start_chunk c' w') xs rest)) = numbers (srun evs (mkSS (start_chunk c' w') xs' rest'))).
    rewrite (C85_within_chunk_partial _ _ _ _ []) by lia. rewrite (C85_within_chunk_partial _ _ _ _ []) by lia. reflexivity.
  Qed.
End C85.
Print Assumptions C85_samples.
Print Assumptions C85_within_chunk_partial.
Print Assumptions C85_reseeded_refuted.
Print Assumptions C85_repeated_refuted.

(** A toy generator: a counter that draws its state.  The consumer seeds with 5 or with 9000, takes three samples (two
    chunks of one key) and draws after each: before the stream its numbers differ, after the first sample they do not, and
    the second chunk brings the numbers of the first again. *)
Definition k85 : mkey := canon [([108], [[101]])].
Definition c85 (l : list Z) : @schunk Z := mkSC [(k85, [(1, [(1, [(0, 2)])])])] Overall l.
Definition run85 (seed : Z) : list (@sout Z) :=
  srun (G:=Z) (N:=Z) (X:=Z) (fun s => s) (fun s => s) (fun n g => g + Z.of_nat n) (fun g => (g, g + 1)) (fun g => (g, g + 1))
       (fun t => Z.of_nat (length t)) (fun _ => []) [DrawPy; TakeSample; DrawPy; TakeSample; DrawPy; TakeSample; DrawPy; DrawNp]
       (mkSS (seed, seed) [] [c85 [10; 11]; c85 [12; 13]]).
Example C85_example : exists a b n,
  run85 5 = [DrewPy 5; Sample 10; DrewPy a; Sample 11; DrewPy b; Sample 12; DrewPy a; DrewNp n]
  /\ run85 9000 = [DrewPy 9000; Sample 10; DrewPy a; Sample 11; DrewPy b; Sample 12; DrewPy a; DrewNp n] /\ a <> b
  /\ same_shape (c85 [10; 11]) (c85 [12; 13]).
Proof. do 3 eexists. split; [vm_compute; reflexivity|]. split; [vm_compute; reflexivity|]. split; [vm_compute; discriminate|apply Permutation_refl]. Qed.
