(** C83: the trainers of a group see the same samples in the same order.  Model: GroupModel.v, with DistributorModel.v
    for the chunks each node is handed. *)
From Verif Require Import Base MixtureKeyModel MixtureKeyProofs UtilsModel ChunkGenModel MixtureModel SpecRoundRobin RoundRobin TokenModel SpecToken
  ResultChunkModel ResultChunkProofs ResultChunkProofs2 ResultChunkProofs3 ResultChunkProofs4 ResultChunkProofs5 ResultChunkProofs6
  SpecResultChunk FloatModel DistributorModel SpecDistributor DistributorProofs3 PropertiesResultChunk PropertiesDistributor GroupModel.
From Coq Require Import QArith ZifyBool ZifyNat.
Local Open Scope nat_scope.

(** Two machines start the same number of reader processes for the degree of parallelism [dop]. *)
Definition same_readers (dop cpu cpu' : Z) : Prop := (dop <= 1)%Z \/ Z.min dop cpu = Z.min dop cpu'.

Definition prefix {X} (l l' : list X) : Prop := exists r, l' = l ++ r.

Lemma configure_dop {A} fl c (a : rargs A) cf : configure fl c a = Ok cf -> rf_dop cf = if (ra_dop a <? 1)%Z then 1%Z else ra_dop a.
Proof.
  unfold configure. cbv zeta. intros H.
  repeat match type of H with
         | (match ?x with _ => _ end) = Ok _ => destruct x; try discriminate H
         end; injection H as <-; reflexivity.
Qed.

Lemma iterate_cpu {A} fl (read : Z -> Z -> list range -> stream A) is_end is_none sh cpu cpu' fuel c (cf : rconf A) :
  same_readers (rf_dop cf) cpu cpu' -> (1 <= rf_dop cf)%Z ->
  iterate fl read is_end is_none sh cpu fuel c cf = iterate fl read is_end is_none sh cpu' fuel c cf.
Proof.
  intros Hs H1. unfold iterate, init_iterators, base_iterators. destruct (rf_dop cf =? 1)%Z eqn:E; [reflexivity|].
  destruct Hs as [Hs|Hs]; [lia|]. unfold process_counts. rewrite Hs. reflexivity.
Qed.

Lemma chunk_results_cpu {A} fl (read : Z -> Z -> list range -> stream A) is_end is_none sh cpu cpu' fuel a c :
  same_readers (ra_dop a) cpu cpu' ->
  chunk_results fl read is_end is_none sh cpu fuel a c = chunk_results fl read is_end is_none sh cpu' fuel a c.
Proof.
  intros Hs. unfold chunk_results. destruct (configure fl c a) as [cf|e] eqn:E; [|reflexivity].
  apply configure_dop in E. apply iterate_cpu; rewrite E; destruct (ra_dop a <? 1)%Z eqn:E1; try lia; [left; lia|exact Hs].
Qed.

Lemma stream_results_cpu {A} fl (read : Z -> Z -> list range -> stream A) is_end is_none sh cpu cpu' fuel a cs :
  same_readers (ra_dop a) cpu cpu' ->
  stream_results fl read is_end is_none sh cpu fuel a cs = stream_results fl read is_end is_none sh cpu' fuel a cs.
Proof.
  intros Hs. induction cs as [|c cs IH]; [reflexivity|]. cbn [stream_results].
  rewrite (chunk_results_cpu fl read is_end is_none sh cpu cpu' fuel a c Hs), IH. reflexivity.
Qed.

Lemma stream_results_app {A} fl (read : Z -> Z -> list range -> stream A) is_end is_none sh cpu fuel a cs cs' :
  prefix (fst (stream_results fl read is_end is_none sh cpu fuel a cs)) (fst (stream_results fl read is_end is_none sh cpu fuel a (cs ++ cs'))).
Proof.
  induction cs as [|c cs IH]; [eexists; reflexivity|]. cbn [app stream_results].
  destruct (chunk_results fl read is_end is_none sh cpu fuel a c) as [out [x| |e]].
  - exists []. rewrite app_nil_r. reflexivity.
  - destruct (stream_results fl read is_end is_none sh cpu fuel a cs) as [o1 e1].
    destruct (stream_results fl read is_end is_none sh cpu fuel a (cs ++ cs')) as [o2 e2]. cbn [fst] in *.
    destruct IH as [r ->]. exists r. rewrite app_assoc. reflexivity.
  - exists []. rewrite app_nil_r. reflexivity.
Qed.

Lemma prefix_of_nth {X} (l : list X) : forall l', (forall i x y, nth_error l i = Some x -> nth_error l' i = Some y -> x = y) ->
  length l <= length l' -> prefix l l'.
Proof.
  induction l as [|x l IH]; intros l' H Hl; [eexists; reflexivity|]. destruct l' as [|y l']; cbn in Hl; [lia|].
  pose proof (H 0 x y eq_refl eq_refl) as ->. destruct (IH l') as [r ->]; [intros i a b Ha Hb; apply (H (S i) a b Ha Hb)|lia|].
  exists r. reflexivity.
Qed.

(** Nodes [a] and [b] of group [g] have been handed chunks [ca] and [cb] for worker [w], in any history of requests and
    checkpoints of the job.  If [a] is not ahead, what its worker's stream gives from these chunks is the beginning of
    what [b]'s gives: the same samples, with the same indices and key ids, in the same order, and if an exception ends
    one of them early it is the same one.  Needed: both machines start the same number of reader processes. *)
Theorem C83_same_samples_partial : forall A fl (read : Z -> Z -> list range -> stream A) is_end is_none sh cpua cpub fuel args
  src dp nodes nw cached s0 ops s es g a b w,
  dist_init dp nodes nw cached 0 = Ok s0 -> drun src s0 ops = (s, es) ->
  same_readers (ra_dop args) cpua cpub ->
  let ca := got g a w ops es in let cb := got g b w ops es in
  length ca <= length cb ->
  prefix (fst (stream_results fl read is_end is_none sh cpua fuel args ca)) (fst (stream_results fl read is_end is_none sh cpub fuel args cb))
  /\ (length ca = length cb -> stream_results fl read is_end is_none sh cpua fuel args ca = stream_results fl read is_end is_none sh cpub fuel args cb).
Proof.
  intros A fl read is_end is_none sh cpua cpub fuel args src dp nodes nw cached s0 ops s es g a b w Hi Hr Hs ca cb Hl.
  assert (P : prefix ca cb).
  { apply prefix_of_nth; [|exact Hl]. intros i x y Hx Hy. exact (C16_same_data_run src dp nodes nw cached s0 ops s es g a b w i x y Hi Hr Hx Hy). }
  destruct P as [r Er]. rewrite (stream_results_cpu fl read is_end is_none sh cpua cpub fuel args ca Hs). split.
  - rewrite Er. apply stream_results_app.
  - intros El. rewrite Er, app_length in El. destruct r; [rewrite Er, app_nil_r; reflexivity|cbn in El; lia].
Qed.

(** Whatever the machines, the same chunk gives the same samples up to order (no windows, reads that succeed). *)
Theorem C83_same_set_partial : forall A fl (read : Z -> Z -> list range -> stream A) is_end is_none sh cpua cpub c cf,
  shuffle_ok sh -> chunk_ok c -> readable read is_end is_none c cf -> rc_skip c = 0 -> rf_type cf = MSimple -> rf_tok cf = None ->
  exists N, forall fuel, N <= fuel -> exists oa ob,
    iterate fl read is_end is_none sh cpua fuel c cf = (oa, StopIter) /\ iterate fl read is_end is_none sh cpub fuel c cf = (ob, StopIter)
    /\ Permutation (tags oa) (tags ob).
Proof.
  intros A fl read is_end is_none sh cpua cpub c cf H1 H2 H3 H4 H5 H6.
  destruct (C21_once A fl read is_end is_none sh cpua c cf H1 H2 H3 H4 H5 H6) as (Na & Ha).
  destruct (C21_once A fl read is_end is_none sh cpub c cf H1 H2 H3 H4 H5 H6) as (Nb & Hb).
  exists (Na + Nb). intros fuel Hf. destruct (Ha fuel) as (oa & Ea & Pa & _); [lia|]. destruct (Hb fuel) as (ob & Eb & Pb & _); [lia|].
  exists oa, ob. split; [exact Ea|]. split; [exact Eb|]. rewrite Pa, Pb. reflexivity.
Qed.
Print Assumptions C83_same_samples_partial.
Print Assumptions C83_same_set_partial.

(** ** Examples *)
(** A chunk with one key: two rows of file 1 and two of file 2; two reader processes wanted. *)
Definition g_idx : index := [(kA, [(1, [(1, [(0, 2)]); (2, [(0, 2)])])])]%Z.
Definition g_chunk : rc := mkRC g_idx 4 [(kA, 0)]%Z (Some [(kA, 4)]%Z) 0.
Definition g_args : rargs Z := mkRA 2 MSimple 1 true false None 2 2 true false true false false.
Definition g_sh : shuffles := mkShuf (fun _ l => l) (fun l => l) (fun l => l).
Definition g_stream (cpu : Z) (cs : list rc) := stream_results fl64 ex_read never never g_sh cpu 100 g_args cs.

(** A machine with one core reads the files one after the other, a machine with two cores alternates: the trainers of
    one group, given the same chunk, see different samples at the same step. *)
Theorem C83_cpu_count_refuted :
  g_stream 1 [g_chunk] = ([(0, 0%Z, Text 1000%Z); (1, 0%Z, Text 1001%Z); (2, 0%Z, Text 2000%Z); (3, 0%Z, Text 2001%Z)], StopIter)
  /\ g_stream 2 [g_chunk] = ([(0, 0%Z, Text 1000%Z); (1, 0%Z, Text 2000%Z); (2, 0%Z, Text 1001%Z); (3, 0%Z, Text 2001%Z)], StopIter).
Proof. split; vm_compute; reflexivity. Qed.

(** A job checkpointed after two samples on a machine with two cores and restored on one with one core: sample 2000 is
    seen twice, sample 1001 never. *)
Theorem C83_moved_job_refuted :
  firstn 2 (fst (g_stream 2 [g_chunk])) = [(0, 0%Z, Text 1000%Z); (1, 0%Z, Text 2000%Z)]
  /\ g_stream 1 [with_skip 2 g_chunk] = ([(2, 0%Z, Text 2000%Z); (3, 0%Z, Text 2001%Z)], StopIter)
  /\ In (2, 0%Z, Text 1001%Z) (fst (g_stream 2 [g_chunk])).
Proof. split; [vm_compute; reflexivity|]. split; [vm_compute; reflexivity|]. vm_compute. auto. Qed.

(** The hypotheses: two nodes, one worker; node 1 asks twice, node 0 once. *)
Example C83_example :
  let src := fun i => if Nat.eqb i 0 then QChunk g_chunk else if Nat.eqb i 1 then QChunk ex_chunk else QNone in
  exists s0 s es, let ops := [Req 0 0 0 true; Req 0 1 0 true; Req 0 1 0 true]%Z in
    dist_init 1 2 1 false 0 = Ok s0 /\ drun src s0 ops = (s, es)
    /\ got 0 0 0 ops es = [g_chunk] /\ got 0 1 0 ops es = [g_chunk; ex_chunk]
    /\ same_readers (ra_dop g_args) 4 8 /\ ~ same_readers (ra_dop g_args) 1 2
    /\ length (fst (g_stream 8 (got 0 1 0 ops es))) = 8.
Proof.
  do 3 eexists. split; [reflexivity|]. split; [vm_compute; reflexivity|]. split; [vm_compute; reflexivity|]. split; [vm_compute; reflexivity|].
  split; [right; reflexivity|]. split; [intros [H|H]; [cbn in H; lia|discriminate H]|vm_compute; reflexivity].
Qed.
