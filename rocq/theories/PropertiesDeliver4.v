(** C73, the end of the iteration: with a fixed chunk size, a query over files ends after at most one call more than there are samples,
    having delivered the contents of exactly the matching samples, if the number of property combinations is odd or their
    shuffled order balanced (C05_even_exact); otherwise it never ends. *)
From Coq Require Import String.
From Verif Require Import Base MixtureKeyModel MixtureKeyProofs UtilsModel ChunkGenModel ParserModel MdcModel SpecMdc ReaderModel FilesModel SpecFiles
  SqlModel SpecSql PropertiesSql IntervalModel SpecInterval PropertiesInterval ChunkerModel TokenModel SpecChunker SpecChunk ExecModel SpecExec ExecProofs ExecProofs2
  ChunkGenProofs4 ChunkGenProofs5 PropertiesChunk PropertiesChunker MixtureModel ResultChunkModel ResultChunkProofs5 ResultChunkProofs6 SpecResultChunk PropertiesResultChunk PropertiesExec
  DeliverModel SpecDeliver DeliverProofs DeliverProofs2 SpecBalance ChunkGenProofs13 PropertiesBalance PropertiesDeliver PropertiesDeliver2 PropertiesDeliver3.
From Coq Require Import QArith.
Open Scope Z_scope.

Section C73.
  Variable glt : group -> group -> bool.
  Variable na : option bool.
  Variable itk : cindex -> cindex.
  Variable itd : list (Z * list (Z * list interval)) -> list (Z * list (Z * list interval)).
  Variable itf : list (Z * list interval) -> list (Z * list interval).
  Hypothesis Hlt : strict_total glt.
  Hypothesis Hna : na <> Some true.
  Hypothesis Hk : permutes itk.
  Hypothesis Hd : permutes itd.
  Hypothesis Hf : permutes itf.
  Notation executes := (executes glt na itk itd itf).
  (** The files, and the libraries that open them. *)
  Variables (root : node) (cwd : node) (cwd_anc : list node).
  Variable unpack : str -> str -> res str.
  Variable parquet_open : str -> res (list (list pval)).
  Variable to_batches : list pval -> list (list pval).
  Variable tar_open : str -> res (list (list member)).
  Variable decode : list (str * str) -> res pval.
  Context {A : Type}.
  Variable parsing_func : str -> pval -> res A.
  (** to_batches cuts a table into batches and loses nothing. *)
  Hypothesis Hb : forall l, concat (to_batches l) = l.
  Notation content := (content root cwd cwd_anc unpack parquet_open tar_open decode parsing_func).
  Notation on_disk := (on_disk root cwd cwd_anc unpack parquet_open tar_open decode parsing_func).
  Notation read_workload := (read_workload root cwd cwd_anc unpack parquet_open to_batches tar_open decode parsing_func).

  Theorem C73_ends_partial s cols sels idx table m size fuel order h0 r0 son ops q os fl is_end is_none sh cpu (a : rargs A) :
    consistent s -> on_disk s -> table_ok cols (samples s) -> text_ok cols (samples s) -> query_ok cols sels ->
    result_table glt na cols sels (samples s) = Some table -> parse_meta s table = Ok m -> executes cols sels (samples s) (Some idx) ->
    Permutation order (map fst idx) -> 1 <= size -> fixed_size size h0 -> Forall (fun o => fixed_size size (op_heap o)) ops ->
    qrun (S fuel) ops (qr_init idx order h0 r0 son) = (q, os) ->
    (List.length idx * List.length idx <= S fuel)%nat -> (List.length (samples s) < List.length os)%nat ->
    shuffle_ok sh -> ra_type a = MSimple ->
    (1 < ra_dop a -> (forall x t, content s x t -> is_end t = false) /\ forall c, In c (chunks os) -> exists cf, configure fl (chunk_object c) a = Ok cf) ->
    (ra_prefetch a = true -> forall x t, content s x t -> is_none t = false) ->
    (Z.odd (Z.of_nat (List.length idx)) = true \/ balanced size idx order ->
      exists N, forall n, (N <= n)%nat -> exists outs ys texts,
        Forall2 (fun c out => exists cf, configure fl (chunk_object c) a = Ok cf /\ iterate fl (read_workload m) is_end is_none sh cpu n (chunk_object c) cf = (out, StopIter)) (chunks os) outs
        /\ Permutation (map snd (flat_map tags outs)) (map Text texts)
        /\ selects (matches na cols sels) (samples s) ys /\ Forall2 (fun x t => content s (fst x) t) ys texts)
    /\ (Z.odd (Z.of_nat (List.length idx)) = false -> ~ balanced size idx order -> In (NErr OutOfFuel) os).
  Proof using Hlt Hna Hk Hd Hf Hb.
    intros Hs Hod T X Q R Pm E Ho Hc H0 Hops Hrun Hfu Hl Hsh Ta P1 P2.
    destruct (C72_ends_partial glt na itk itd itf Hlt Hna Hk Hd Hf cols sels (samples s) idx size fuel order h0 r0 son ops q os T X Q E Ho Hc Hops Hrun Hfu Hl) as [G1 G2].
    split; [|exact G2]. intros B. destruct (G1 B) as (Hst & Hn & _).
    apply (C73_everything_partial glt na itk itd itf Hlt Hna Hk Hd Hf root cwd cwd_anc unpack parquet_open to_batches tar_open decode parsing_func Hb
      s cols sels idx table m fuel order h0 r0 son ops q os fl is_end is_none sh cpu a); auto.
    - eapply const_arbitrary; eauto.
    - eapply Forall_impl; [|exact Hops]. intros o Ho'. eapply const_arbitrary; eauto.
  Qed.
End C73.
Print Assumptions C73_ends_partial.

(** The hypotheses are met by the example of C73: one property combination, chunks of the size of [heap_rr], four samples and five calls. *)
Example C73_ends_example : exists q c, fixed_size 4 heap_rr /\ qrun 20 (repeat (Next heap_rr) 5) (qr_init c73_idx [c73_key] heap_rr 0 false) = (q, [NChunk c; NStop; NStop; NStop; NStop])
  /\ (List.length (samples c73_db) < 5)%nat /\ Z.odd (Z.of_nat (List.length c73_idx)) = true /\ consistent c73_db.
Proof. eexists _, _. split; [intros r; split; reflexivity|]. split; [vm_compute; reflexivity|]. split; [vm_compute; lia|]. split; [reflexivity|exact c73_consistent]. Qed.
