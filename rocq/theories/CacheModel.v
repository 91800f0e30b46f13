(** Model of mixtera/core/query/query_cache.py (QueryCache), of QueryResult.to_cache / from_cache
    (mixtera/core/query/query_result.py 647-690, 742-793) and of their use in LocalStub.execute_query
    (mixtera/core/client/local/local_stub.py 71-97).

    Simplifications.  A query has a text, [str(query)]; SHA-256 is any function [sha] (collisions allowed).  Running a
    query is any relation [executes] between what a query can see of the catalogue (its columns, and each sample with
    its dataset's and file's rows) and a result: an index and the rest of the QueryResult ([M]: types, paths and parsing
    functions).  The state in pickled.pkl that execute_query resets (337 log dir, key ids, mixture) is left out, as are
    the [enabled] flag and the empty query text.  A file is missing, half-written or whole; mkdir and unlink are
    atomic. *)
From Verif Require Import Base MixtureKeyModel ChunkGenModel ChunkerModel SerialModel ParserModel MdcModel.
Open Scope Z_scope.

(** What a query reads: query.py 91-160 (the samples table and its columns), query_result.py _parse_meta (dataset and
    file rows of the samples found) *)
Definition view_t : Type := list str * list (sample * option (str * dinfo) * option (Z * str)).
(** query.py 91-160, query_result.py 145-157: the rows of the catalogue a query can read. *)
Definition view (s : db) : view_t :=
  (columns s, map (fun r => (r, aget Z.eqb (fst (fst (fst r))) (datasets s), aget Z.eqb (snd (fst (fst r))) (files s))) (samples s)).

(** A file of a cache directory (query_cache.py 48-53, query_result.py 674-690): missing, half-written or whole. *)
Inductive fstate (A : Type) := FMissing | FTorn | FFull (a : A).
Arguments FMissing {A}. Arguments FTorn {A}. Arguments FFull {A}.

Section Cache.
  Context {M query : Type}.
  Variable text : query -> str.
  Variable sha : str -> str.
  Variable executes : view_t -> query -> M * pindex -> Prop.
  Variable castable : list str -> list mprop -> list sample -> bool.
  Variable metadata_of : str -> res (list (Z * record)).

  (** one cache directory (query_cache.py 40-54): meta.pkl, dilled.pkl, pickled.pkl, chunker_index/ *)
  Record entry := Entry { e_meta : fstate (Z * str); e_dilled : fstate M; e_pickled : fstate unit; e_index : option dir }.
  (** query_cache.py 33-41: the numbered directories below one hash directory. *)
  Definition entries := list (Z * entry).
  (** query_cache.py 15-20: the cache directory, one directory per query hash. *)
  Definition cache := list (str * entries).

  (** query_result.py 742-793 from_cache; [None] = an exception *)
  Inductive from_cache (e : entry) : option (M * pindex) -> Prop :=
  | FcNoPickle : e_pickled e <> FFull tt -> from_cache e None
  | FcNoDill : (forall m, e_dilled e <> FFull m) -> from_cache e None
  | FcNoIndex : e_index e = None -> from_cache e None
  | FcBadIndex fs : e_index e = Some fs -> loaded fs None -> from_cache e None
  | FcOk m fs p : e_pickled e = FFull tt -> e_dilled e = FFull m -> e_index e = Some fs -> loaded fs (Some p) ->
      from_cache e (Some (m, p)).

  (** query_cache.py 72-97: the loop over the directories, in the order in which they are listed *)
  Inductive found := NotFound | BadMeta | Stale (n : Z) (e : entry) | Hit (e : entry).
  (** query_cache.py 72-97: which directory the loop stops at. *)
  Fixpoint scan (t : str) (ver : Z) (l : entries) : found :=
    match l with
    | [] => NotFound
    | (n, e) :: l' =>
        match e_meta e with
        | FMissing => scan t ver l'
        | FTorn => BadMeta
        | FFull (v, t') => if str_eqb t' t then if v =? ver then Hit e else Stale n e else scan t ver l'
        end
    end.
  (** query_cache.py 90-96: rmtree of a stale directory, and of the hash directory once it is empty. *)
  Definition drop_entry (h : str) (n : Z) (c : cache) : cache :=
    let l := adel Z.eqb n (getd str_eqb h c) in
    match l with [] => adel str_eqb h c | _ => aset str_eqb h l c end.
  (** query_cache.py 58-99: what get_queryresults_if_cached returns or raises. *)
  Inductive answer := Miss | Raises | Served (r : M * pindex).
  (** query_cache.py 58-99 get_queryresults_if_cached; the last three: a crash while a stale directory is removed *)
  Inductive gets (c : cache) (ver : Z) (t : str) : cache -> option answer -> Prop :=
  | GNoDir : aget str_eqb (sha t) c = None -> gets c ver t c (Some Miss)
  | GEmpty : aget str_eqb (sha t) c = Some [] -> gets c ver t (adel str_eqb (sha t) c) (Some Miss)
  | GNotFound l order : aget str_eqb (sha t) c = Some l -> l <> [] -> Permutation order l -> scan t ver order = NotFound ->
      gets c ver t c (Some Miss)
  | GBadMeta l order : aget str_eqb (sha t) c = Some l -> Permutation order l -> scan t ver order = BadMeta -> gets c ver t c (Some Raises)
  | GStale l order n e : aget str_eqb (sha t) c = Some l -> Permutation order l -> scan t ver order = Stale n e ->
      gets c ver t (drop_entry (sha t) n c) (Some Miss)
  | GHit l order e r : aget str_eqb (sha t) c = Some l -> Permutation order l -> scan t ver order = Hit e -> from_cache e r ->
      gets c ver t c (Some (match r with Some r => Served r | None => Raises end))
  | GCrash l order n e e' : aget str_eqb (sha t) c = Some l -> Permutation order l -> scan t ver order = Stale n e ->
      (e_meta e' = e_meta e \/ e_meta e' = FMissing) ->
      gets c ver t (aset str_eqb (sha t) (aset Z.eqb n e' l) c) None.

  (** query_cache.py 33-37 *)
  Definition next_number (l : entries) : Z := fold_right (fun e m => Z.max (fst e + 1) m) 0 l.
  (** query_cache.py 30-41: the directory created for a new result. *)
  Definition add_entry (c : cache) (t : str) (e : entry) : cache :=
    let l := getd str_eqb (sha t) c in aset str_eqb (sha t) (l ++ [(next_number l, e)]) c.
  (** 42-54: what a crash can leave, in the order in which the files are written: meta.pkl, then to_cache
      (query_result.py 674-690): dilled.pkl, pickled.pkl, chunker_index *)
  Inductive put_crash (v : Z) (t : str) (m : M) (idx : pindex) : entry -> Prop :=
  | P0 : put_crash v t m idx (Entry FMissing FMissing FMissing None)
  | P1 : put_crash v t m idx (Entry FTorn FMissing FMissing None)
  | P2 : put_crash v t m idx (Entry (FFull (v, t)) FMissing FMissing None)
  | P3 : put_crash v t m idx (Entry (FFull (v, t)) FTorn FMissing None)
  | P4 : put_crash v t m idx (Entry (FFull (v, t)) (FFull m) FMissing None)
  | P5 : put_crash v t m idx (Entry (FFull (v, t)) (FFull m) FTorn None)
  | P6 : put_crash v t m idx (Entry (FFull (v, t)) (FFull m) (FFull tt) None)
  | P7 fs : crashed_save idx fs -> put_crash v t m idx (Entry (FFull (v, t)) (FFull m) (FFull tt) (Some fs)).
  (** query_cache.py 40-56 and query_result.py 647-690: what a call that ran to its end leaves. *)
  Inductive put_done (v : Z) (t : str) (m : M) (idx : pindex) : entry -> Prop :=
  | PutDone fs : saved idx None (Some fs) -> put_done v t m idx (Entry (FFull (v, t)) (FFull m) (FFull tt) (Some fs)).

  (** ** Histories.  A configuration: the catalogue, the cache and the query being executed, if any (executed, but not
      yet cached; LocalStub executes one query at a time: server.py 93).  The flags say what else may happen: [conc] --
      a dataset operation runs while a query is being executed (server.py 199 runs them in threads of their own);
      [rmcrash] -- a crash inside remove_dataset; [putcrash] -- a crash while a result is written to the cache. *)
  Record config := Config { c_db : db; c_cache : cache; c_pend : option (query * (M * pindex)) }.
  Variables conc rmcrash putcrash : bool.
  Inductive hist : config -> Prop :=
  | HStart : hist (Config init_db [] None)
  (** a crash at any time: what was being executed is lost *)
  | HCrash k : hist k -> hist (Config (c_db k) (c_cache k) None)
  (** register_dataset runs to its end *)
  | HReg k name info vt fnd schema tr o : hist k -> (c_pend k = None \/ conc = true) ->
      register castable metadata_of (c_db k) name info vt fnd schema = (tr, o) ->
      hist (Config (last_db (c_db k) tr) (c_cache k) (c_pend k))
  (** ... or crashes on the way *)
  | HRegCrash k name info vt fnd schema tr o s' : hist k ->
      register castable metadata_of (c_db k) name info vt fnd schema = (tr, o) -> In s' tr ->
      hist (Config s' (c_cache k) None)
  | HRem k name tr o : hist k -> (c_pend k = None \/ conc = true) -> remove (c_db k) name = (tr, o) ->
      hist (Config (last_db (c_db k) tr) (c_cache k) (c_pend k))
  | HRemCrash k name tr o s' : hist k -> rmcrash = true -> remove (c_db k) name = (tr, o) -> In s' tr ->
      hist (Config s' (c_cache k) None)
  (** execute_query: the lookup (81); a hit or an exception needs no more *)
  | HGet k q c' a : hist k -> c_pend k = None -> gets (c_cache k) (version (c_db k)) (text q) c' (Some a) -> a <> Miss ->
      hist (Config (c_db k) c' None)
  | HGetCrash k q c' : hist k -> gets (c_cache k) (version (c_db k)) (text q) c' None -> hist (Config (c_db k) c' None)
  (** a miss: the query runs (92) *)
  | HExec k q c' r : hist k -> c_pend k = None -> gets (c_cache k) (version (c_db k)) (text q) c' (Some Miss) ->
      executes (view (c_db k)) q r -> hist (Config (c_db k) c' (Some (q, r)))
  (** and is cached (93) under the version of that moment *)
  | HPut k q m idx e : hist k -> c_pend k = Some (q, (m, idx)) -> put_done (version (c_db k)) (text q) m idx e ->
      hist (Config (c_db k) (add_entry (c_cache k) (text q) e) None)
  | HPutMkdir k q r : hist k -> putcrash = true -> c_pend k = Some (q, r) ->
      hist (Config (c_db k) (aset str_eqb (sha (text q)) (getd str_eqb (sha (text q)) (c_cache k)) (c_cache k)) None)
  | HPutCrash k q m idx e : hist k -> putcrash = true -> c_pend k = Some (q, (m, idx)) ->
      put_crash (version (c_db k)) (text q) m idx e -> hist (Config (c_db k) (add_entry (c_cache k) (text q) e) None).
End Cache.
