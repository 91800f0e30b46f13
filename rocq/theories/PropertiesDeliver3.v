(** C73, concrete cases: the catalogue and the query of C72 with two files of two lines each, run from the catalogue to
    the texts; a registration that meets the hypotheses of C73_registered_partial; and a file registered under a path
    with a trailing slash, which then cannot be read. *)
From Coq Require Import String.
From Verif Require Import Base MixtureKeyModel MixtureKeyProofs UtilsModel ChunkGenModel ParserModel SpecParser MdcModel SpecMdc ReaderModel SpecReader ReaderProofs FilesModel SpecFiles FilesProofs PropertiesFiles
  SqlModel SpecSql IntervalModel SpecInterval ChunkerModel TokenModel SpecChunker PropertiesChunker SpecChunk PropertiesChunk ExecModel SpecExec MixtureModel ResultChunkModel ResultChunkProofs5 ResultChunkProofs6 SpecResultChunk PropertiesResultChunk PropertiesExec
  DeliverModel SpecDeliver DeliverProofs PropertiesDeliver PropertiesDeliver2.
Open Scope Z_scope.

(** The samples of C72 ... *)
Definition c73_root : node :=
  NDir [(lit "data", NDir [(lit "a.jsonl", NFile (lit "one" ++ [10] ++ lit "two" ++ [10])); (lit "b.jsonl", NFile (lit "three" ++ [10] ++ lit "four"))]);
        (lit "x.tar", NFile (lit "t"))].
Definition c73_db : db :=
  Db [(1, (lit "d", DInfo (lit "/data") 1 (lit "f")))] [(1, (1, lit "/data/a.jsonl")); (2, (1, lit "/data/b.jsonl"))] c72_samples [] 1 2 3.
(** ... parsed by a function that returns a line as it is. *)
Definition c73_parse (_ : str) (v : pval) : res str := match v with PStr l => Ok l | _ => Err TypeError end.
Notation c73_content := (content c73_root c73_root [] (fun _ raw => Ok raw) (fun _ => Err ValueError) (fun _ => Err ValueError) (fun _ => Err ValueError) c73_parse).
Notation c73_read := (read_workload c73_root c73_root [] (fun _ raw => Ok raw) (fun _ => Err ValueError) (fun l => [l]) (fun _ => Err ValueError) (fun _ => Err ValueError) c73_parse).

Lemma c73_consistent : consistent c73_db.
Proof.
  unfold consistent, list_datasets. cbn [c73_db datasets files samples next_dataset next_file map fst snd].
  split; [repeat constructor; intros []|]. split; [repeat constructor; intros []|]. split; [repeat constructor; cbn; intuition lia|].
  split; [repeat constructor; cbn; intuition congruence|]. split; [|split].
  - intros f d l [[= <- <- <-]|[[= <- <- <-]|[]]]; split; try lia; left; reflexivity.
  - intros d f i r H. repeat destruct H as [H|H]; try contradiction; injection H as <- <- <- <-; eexists; [left|left|right; left|right; left]; reflexivity.
  - intros d [<-|[]]. lia.
Qed.
Lemma c73_on_disk : on_disk c73_root c73_root [] (fun _ raw => Ok raw) (fun _ => Err ValueError) (fun _ => Err ValueError) (fun _ => Err ValueError) c73_parse c73_db.
Proof.
  split.
  - intros x r H. repeat destruct H as [H|H]; try contradiction; injection H as <- <-.
    1: exists (lit "one" ++ [10]). 2: exists (lit "two" ++ [10]). 3: exists (lit "three" ++ [10]). 4: exists (lit "four").
    all: eexists (lit "d"), _, JsonlDs, _, _; split; [left; reflexivity|]; split; [reflexivity|]; (split; [(left; reflexivity) || (right; left; reflexivity)|]);
      split; [split; [lia|]; eexists; split; [vm_compute; reflexivity|]; eexists _, _, _; split; [reflexivity|]; split; [apply text_lines_ex|]; split; [vm_compute; reflexivity|reflexivity]|reflexivity].
  - intros f d path [[= <- <- <-]|[[= <- <- <-]|[]]]; (split; [eexists; reflexivity|reflexivity]).
Qed.
Definition c73_key : mkey := [(lit "lang", [lit "en"]); (lit "tag", [lit "x"; lit "z"])].
Definition c73_idx : pindex := [(c73_key, [(1, [(1, [(0, 2)])])])].
(** The whole way: the metadata, the index, the one chunk with both matching rows, and its texts -- the two lines of the
    first file. *)
Example C73_example :
  exists table m q c,
    result_table db_lt None c72_cols c72_query (samples c73_db) = Some table /\ parse_meta c73_db table = Ok m
    /\ executes db_lt None (fun l => l) (fun l => l) (fun l => l) c72_cols c72_query (samples c73_db) (Some c73_idx)
    /\ (forall r, m_rows (heap_rr r) = [])
    /\ qrun 20 [Next heap_rr; Next heap_rr] (qr_init c73_idx [c73_key] heap_rr 0 false) = (q, [NChunk c; NStop])
    /\ exists cf out, configure (fun x => x) (chunk_object c) (mkRA 1 MSimple 0 false false None 0 0 false false false false false) = Ok cf
      /\ iterate (fun x => x) (c73_read m) (fun _ => false) (fun _ => false) ex_sh 4 50 (chunk_object c) cf = (out, StopIter)
      /\ map snd (tags out) = [Text (lit "one" ++ [10]); Text (lit "two" ++ [10])].
Proof.
  eexists _, _, _, _. split; [exact C72_table|]. split; [vm_compute; reflexivity|]. split; [|split; [reflexivity|split]].
  - eapply (ExIndex _ _ _ _ _ _ _ _ _ [[TRow [VStr (lit "en"); VList [Some (lit "x"); Some (lit "z")]] 1 1 0 2]] 8 true); [exact C72_table|reflexivity|].
    destruct (C32_terminates (fun l => l) (fun l => l) (fun l => l) (group_cols c72_cols) [[TRow [VStr (lit "en"); VList [Some (lit "x"); Some (lit "z")]] 1 1 0 2]] (num_workers 8 true)) as (res & H).
    assert (V := creates_value _ _ _ _ _ _ _ H ltac:(vm_compute; intuition discriminate)). vm_compute in V. subst res. exact H.
  - vm_compute. reflexivity.
  - eexists _, _. split; [vm_compute; reflexivity|]. split; vm_compute; reflexivity.
Qed.

(** A registration as in C73_registered_partial: the directory of C70's example. *)
Example C73_registered_example :
  let '(tr, o) := ex_register init_db (lit "d") (lit "/data") in
  o = Done true /\ on_disk ex_root ex_root [] (fun _ raw => Ok raw) (fun _ => Err ValueError) (fun _ => Err ValueError) (fun _ => Err ValueError) c73_parse (last_db init_db tr)
  /\ length (samples (last_db init_db tr)) = 3%nat.
Proof.
  destruct (ex_register init_db (lit "d") (lit "/data")) as [tr o] eqn:E.
  assert (X : o = Done true /\ length (samples (last_db init_db tr)) = 3%nat) by (change tr with (fst (tr, o)); change o with (snd (tr, o)) at 1; rewrite <- E; vm_compute; split; reflexivity).
  destruct X as [-> X]. split; [reflexivity|]. split; [|exact X]. destruct C70_hypotheses_hold as (H1 & H2 & H3 & H4 & _ & H5 & _).
  refine (C73_registered_partial ex_root ex_root [] (fun _ raw => Ok raw) ex_loads (fun _ => Err ValueError) (fun l => [l]) (fun _ => Err ValueError) (fun _ => Err ValueError) (fun _ => Err ValueError) (fun _ _ _ => true)
    c73_parse init_db (lit "d") (lit "/data") JsonlDs [] (builtin (fun _ => [])) (lit "FINEWEB") fineweb tr H1 _ H2 _ _ _ _ H5 E _ _).
  - split; [intros ? ? []|intros ? ? ? []].
  - rewrite H3. intros es [= <-]. exact H4.
  - rewrite H3. discriminate.
  - intros l. cbn. apply app_nil_r.
  - vm_compute. reflexivity.
  - intros ? ? H. discriminate H.
  - intros f path i v _ (_ & raw & _ & text & ls & line & _ & _ & _ & ->). exists line. reflexivity.
Qed.

(** The full statement of C73 asks nothing of the path.  It is false: a web dataset of one tar file, registered as
    "/x.tar/", is accepted and its sample is in the catalogue -- the metadata are read from Path("/x.tar/"), which is
    /x.tar -- but every attempt to read the sample opens "/x.tar/" and raises. *)
Definition web_register : list db * outcome :=
  register_location c73_root c73_root [] (fun _ raw => Ok raw) ex_loads (fun _ => Err ValueError) (fun l => [l])
    (fun _ => Ok [[((lit "0", lit "txt"), lit "hello")]]) (fun r => Ok (PDict [(lit "dump", PStr (lit "a")); (lit "language", PStr (lit "en"))])) (fun _ _ _ => true)
    init_db (lit "d") (lit "/x.tar/") WebDs [] (builtin (fun _ => [])) (lit "FINEWEB").
Theorem C73_trailing_slash_refuted : let '(tr, o) := web_register in
  o = Done true /\ map fst (samples (last_db init_db tr)) = [(1, 1, 0)]
  /\ (exists m, parse_meta (last_db init_db tr) [TRow [] 1 1 0 1] = Ok m
      /\ forall A (f : str -> pval -> res A) decode to_batches, read_workload c73_root c73_root [] (fun _ raw => Ok raw) (fun _ => Err ValueError) to_batches
           (fun _ => Ok [[((lit "0", lit "txt"), lit "hello")]]) decode f m 1 1 [(0, 1)] = ([], Some RuntimeError)).
Proof.
  destruct web_register as [tr o] eqn:E. assert (X : o = snd web_register) by (rewrite E; reflexivity). assert (Y : tr = fst web_register) by (rewrite E; reflexivity). clear E. subst.
  split; [vm_compute; reflexivity|]. split; [vm_compute; reflexivity|].
  eexists. split; [vm_compute; reflexivity|]. intros. vm_compute. reflexivity.
Qed.
Print Assumptions C73_trailing_slash_refuted.
