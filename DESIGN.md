# Formal model of eth-easl/mixtera in Rocq (Coq 8.16.1)

Layout (all under `rocq/theories/`, logical name `Verif`):

* `Base.v` – lists, association lists (Python dicts in insertion order), exceptions as values,
  lexicographic order, stable sort.
* `*Model.v` files – executable Gallina functions mirroring the Python (or C++) code branch by branch, each
  definition with a comment citing file and lines and naming its simplifications.  No proofs there.
* `Spec*.v` – small specifications written without the model's helpers.
* `*Proofs*.v` – lemmas.
* `Properties*.v` – the theorems of this document, each with `Print Assumptions` beneath, and `Example`s showing that
  their hypotheses are met by concrete non-trivial cases.

## Naming

`C07_...` theorem of property C07.  `..._partial`: only part of the property is proved (MANIFEST.json says what is
missing).  `..._refuted`: the code violates the property; the theorem exhibits the witness.  A property the code
violates has status "partial": the strongest true part is proved, the violation is proved as a counterexample.

## Trusted base

* Coq's kernel (8.16.1), and `vm_compute` (the kernel's conversion VM) for concrete examples.
* `Print Assumptions` says "Closed under the global context" for every theorem listed in MANIFEST.json: no axioms at
  all are used, neither of the standard library nor our own.  (A checker that looks at the whole loaded library also
  lists `Coq.ssr.ssrunder.*`, which the standard library's ssreflect files declare; no theorem depends on them.)
* Faithfulness of the hand-written model; no code was run.  What is modelled and what is not is listed in the section
  "Modelled and not modelled".
* Numbers.  Python `int` is `Z` (unbounded, as in Python) or `nat` where the code only ever holds non-negative counts;
  overflow of `mp.Value("i")`, of the C++ counters and of int64 arrays is not modelled.  A float is a rational; a float
  operation is the exact operation followed by a rounding `fl`, about which theorems assume only a relative error (2^-53,
  or 2^-24 for float32).  `FloatModel.v` defines the concrete round-to-nearest-even `fl64`/`fl32` and proves that they
  qualify, so the hypotheses are met.  Infinities, nan, overflow, underflow and signed zeros are not modelled.
  Theorems that say "exact" are for `fl := fun x => x`.
* `MixtureKey.__hash__` (xxh64) and the C++ key hash are assumed collision free on the keys in use; dict identity of
  keys is equality of the canonical form (sorted properties, sorted values).  C36 shows what `__eq__` itself does.
* `random.shuffle` / seeding is an arbitrary permutation; theorems hold for every permutation.

## Plan per property

(What is modelled / how it is proved.)

Queries and chunks

* C01–C06, C08, C49–C51 – `query_result.py` `_chunk_generator` as a state machine; component coroutines as a state
  holding the remaining ranges; loops on explicit fuel (fuel exhaustion is a distinct outcome; C08 proves that an
  attempt ends, C05 analyses the round robin that does not).  Invariant: rows delivered + rows discarded + rows still in
  components is a permutation of the rows of the index.  (`ChunkGenModel`, `ChunkGenProofs1-12`, `PropertiesChunk(2)`.)
* C07 – component coroutine alone; refinement to "take n from the row list".
* C09, C10 – key-id map and mixture-id bookkeeping as state invariants over all histories.
* C11 – `to_cache`/`from_cache`/`replay` over the generator model: replay with the logged mixtures reaches the same
  generator state; induction over the history; conditions under which the code violates it are refuted.
* C12 – processes with private generator copies and one shared counter; induction over schedules.
* C61 – the text of a query, which is all that identifies it (cache, log): CPython's repr as a prefix code; injectivity of
  `str` on plans by induction (`TextModel`), composed with C34.

Mixtures

* C13, C14, C37, C46 – rational arithmetic, largest remainder; sums by induction; C13 also with rounding.
* C15, C52 – schedule selection as a state machine over feedback messages; simulation of an entry on its own.
* C36, C38 – order and equality laws on keys; merge of sorted lists.
* C39, C40, C59, C60 – dynamic mixing (`DynModel`): the accumulators, loss averaging, ADO around its curve fit.  `fl`,
  numpy's `sum`, the fit and the power function are oracles.

Distribution and checkpoints

* C16, C17, C18 – `next_chunk_for` as a state machine over all request interleavings with the query as an oracle
  stream; invariants relating the cache to the position of each node.
* C19, C20, C53–C55 – `checkpoint`, `_validate_checkpoint_state`, `_persist…`, `from_checkpoint`; simulation between
  restored and uninterrupted distributor; crash points between effects.
* C62 – the torch worker around it (`TorchModel`): fetch, yield, take, report in every interleaving, restarts by induction
  over lives; the status kept by a worker is what its last yield wrote.
* C63 – `handle_mixtera_checkpoint` (`HandleModel`): per-node phases, the file mixtera.id, the writing processes; invariant
  over all interleavings (one process in flight, all nodes hold its id).
* C66 – `handle_mixtera_feedback` (`FeedbackModel`): ranks, pipeline stages, workers' shared mixture id, job table, mixture
  classes; simulation that drops the calls without losses; composed with the request protocol (C41).
* C67 – `_recover_mixtera_dataset` (`RecoverModel`): searches of object graphs; a search that finds nothing leaves a closed
  set of visited objects; recursion depth bounded by their number.
* C68 – the polling loops (`PollModel`) on the status answers of every server history (C42).
* C69 – `_connect_to_server` (`PollModel`): the generator, the retry loop and the context manager around a request's body;
  the server's state after all connections of one request.
* C70, C71 – `FilesModel`: path strings and their components, a file tree, `FileSystem`/`LocalFileSystem`, `iterate_files` and
  `inform_metadata_parser` of the three dataset classes, `process_file_for_metadata`, in front of `MdcModel.register` and
  `ParserModel`.  Proved by composing C35 (catalogue), C45 (parser) and C56 (readers) with lemmas on paths and suffixes.
* C72 – `ExecModel` puts `MdcModel` samples, `SqlModel`, `IntervalModel` and `ChunkerModel` in a row, as `Query.execute` does, and
  hands the index to `ChunkGenModel`; the specification (`SpecExec`) speaks only of samples, their properties and the
  conditions.  Proved by composing C30, C31, C32, then C01/C02/C05 and C34.  DuckDB's ORDER BY is any strict total order.
* C73 – `DeliverModel` adds the metadata a result keeps (paths, types, parsing functions) and the reading of a workload from
  the file tree of `FilesModel`; proved by composing C72, C21, C28/C56/C57 and C70: the texts streamed are the parsed lines,
  rows or tar groups of the registered files.
* C74 – `ReproModel` gives the order of the index keys (sorted, shuffled with a seed made of their texts; hash and shuffle
  are any functions).  Dict equality of indexes is a relation; a run over one index equals the run over the other
  (`ReproProofs`), mixtures in another key order give related states (simulation, `ReproProofs2`), and two executions build
  equal indexes because both list the maximal runs of matching samples, sorted (`ReproProofs3`, with C31, C32, C72).
* C75 – `SchemaModel` refines the catalogue by column and ENUM types and DuckDB's casts on INSERT; an invariant over all
  histories says each column's type was declared by some registration, so agreeing schemas give identity casts and the
  registration refines to `MdcModel`'s with values that always fit.
* C77 – the parsers of `ParserModel` against a separate relation between samples and records (`SpecParser2`).
* C78 – all constructors of a job and the server of `ServerModel` as one interleaving (`StartModel`); the server's part is
  projected to a history (C42), the processes' part is an invariant relating what each was told to that history.
* C79 – the segment names and a machine's segments as a map (`ShmModel`); names are parsed back, histories by induction.
* C80 – `decode` member by member over streams with a position (`DecodeModel`, `SpecDecode`), decoders as parameters;
  composed with C28's tar reading.
* C81 – the generator with the files it writes (`MixLogModel`, shown to deliver the same), histories as in C01; invariant: the
  newest entry not above a chunk's number has the row numbers of the chunk's mixture (`MixLogProofs`); crash points = prefixes of
  the writes of a call.
* C82 – worker processes with private copies of distributor and query result and a shared counter (`LocalModel`); simulated by
  C12's world, plus: every request reaches the query (the private cache never hits), positions give order and completeness.
* C83 – `GroupModel`: configuring and iterating the chunks a node is handed, on its own machine; C16 for the chunks, and the
  stream depends on the machine only through the number of reader processes.
* C84 – `LocalFeedbackModel`: processes with private copies of the mixtures; without workers the run is a `qrun` whose heap
  changes between calls (C49), with workers the events of the training process commute away and C82 applies.
* C85 – `RngModel`: the global generators as arbitrary state machines, reseeded when a chunk starts; induction over histories of
  samples and draws.
* C86 – `JobsModel`: a table of jobs over shared mixture objects; simulation between the client and the client without the
  other jobs (a query result reads only the object it refers to), and C49 for the shared object.
* C87 – `LocalWaitModel.v` (utils.py 42-57; local_stub.py 97-100, 174-182): the busy wait of the local client against an
  arbitrary history of assignments to the job table, with arbitrary durations of every step. Proved by induction over the
  schedule: truth of the answer, no missed registration, bounded number of looks and bounded time, no KeyError.
* C88 – `LoopModel.v` (server.py 61-502 with the client's timeouts of server_connection.py and network_utils.py): the time at
  which the single event loop answers a queue of requests, foreground computations and waits for a job included, background
  threads excluded. Partial: independence of background durations and a bound for short requests proved by induction over
  the queue; refuted for requests that name an unregistered job and for property calculations.
* C89 – `AdoFitModel.v` (ado.py 358-423, 588-645, 648-755): what is handed to the optimiser for one domain; the optimiser and
  savgol_filter are parameters. `SpecAdoFit.v` says in terms of the messages which points a domain has. Proved by an
  invariant of the two histories ADO keeps (per_step_counts, per_step_losses: row i, column k is the tokens and the loss of
  key k in step i, also for keys that appear later), then the pipeline of masks is a filter of the list of steps.
* C90 – no new model: `DynModel.v` (ado.py 204-356, 508-587) with every rounding the identity. `SpecAdoAvg.v` says, as functions of the
  key, what demand, preference, average, credit and mixture of a step are. Proved: the arrays of the object are these functions
  (with 0 beyond the known keys), step by step; then, by induction over the steps, the closed form of the average (as long as
  some loss falls) and of the vanilla credit.
* C91 – `AdoLogModel.v` (ado.py 113-128, 191-201, 237-248, 312-338, 415-424, 598-600): every function of ADO that logs is written down
  again with its log, the file and the outcome of each write (done, refused, cut off). `SpecAdoLog.v` says what the log
  holds in terms of the messages and of an ADO object without log. Proved: a simulation between the two objects, then
  an invariant over histories of messages and saves for the log and for the file. Left out: the configuration in the file
  and the points of a fit (800-813).
* C92 – `SpecCount.v` (`available`: the rows of a query result a mixture may take for a key; `available_any`: for any of its keys;
  `keys_apart`; `delivered`).  Proved on `ChunkGenModel` (query_result.py 315-572): the number of the call that first
  fails is determined by the data.  Upper bounds from C01–C04 (disjoint, exact, matching chunks), delivery from the
  analysis of a failing attempt (`ChunkGenProofs14.v`: a strict attempt fails only if a key's combinations are drained) and C50/C51
  (no errors, conservation).  `PropertiesCountExec.v` carries it over to samples.  The statement for mixtures whose keys share a
  combination is false (`C92_shared_refuted`).
* C93 – `SpecShare.v` (`follows`: a chunk lists under every key exactly what the mixture asks).  `ChunkGenProofs15.v`: an attempt at a best-effort
  chunk only passes to redistribution a key whose combinations it has drained, so with the conservation of C51 a key that gets less than
  its share is exhausted.  The first part holds for every history and every mixture; "how long" needs keys that share no combination
  (`C93_shared_refuted`).  `PropertiesShare2.v`: for mixtures, strict or best-effort, replaced at any call; `PropertiesShareExec.v` carries it over to samples.
* C94 – `CreateModel.v` (opening a directory: the statements of `_init_database`, each durable on its own, may be cut off by a crash; the catalogue
  operations of `MdcModel.v` on a database with a prefix of its tables).  `PropertiesCreate.v`: induction over histories of openings, calls and crashes;
  consistency comes from C35's `history`.  Assumptions: `duckdb.connect` creates the file, one process uses the directory at a time.
* C95 – `PropertiesUndo.v`, on `MdcModel.v`: every state of a registration is the old catalogue and a part of one dataset (`grown`), every state of a
  removal keeps that (`half`); induction over the removals that were cut off.  Registering again composes C35.
* C76 – `AddPropModel`: add_property with its checks, the executor (C47) and the column step, as the list of database states it
  makes durable.
* C64 – the Hugging Face dataset (`HfModel`): which slot each process streams, from the library's sharding calls.
* C65 – the status array (`StatusModel`): writes and ends of all workers in any order; the array is their positions.

Streaming

* C21–C24 – `result_chunk.py` iteration over per-key sample streams; permutation proofs, window counting, partition of
  workloads, queues under arbitrary schedules.
* C25, C26, C27 – buffer automata; refinement to a function of the token stream; producer/consumer small-step semantics
  for all schedules.
* C28, C56, C57 – readers over a list of rows / row groups; equality with concatenated slices.

Index

* C30 – SQL text as tokens; a recursive-descent parser with SQL's precedence and a three-valued evaluator stand for
  DuckDB.  C31 – the window query as list functions per CTE.
* C32 – chunker.cpp batches/threads/merge as list functions, every interleaving and hash-map order.
* C33 – serialisation to a map from paths (`PropertiesSerial2.v`: onto an existing directory it fails); C34 – the query cache as a state machine with crash points.
* C35, C45, C58 – catalogue (each statement a commit, crash between any two), metadata parser, registry.
* C47 – property calculation.

Network

* C29 – byte codecs, reader over arbitrary fragmentations and truncations.
* C41 – both ends of each request; C42 – server with background tasks, all interleavings.
* C43, C44, C48 – client state machines.

## Modelled and not modelled

Modelled (file: what): `query_result.py` all but logging and multiprocessing start methods; `result_chunk.py`;
`chunk_distributor.py`; `mixture/*.py`; `algo/dynamic_mixing`, `algo/loss_avg`, `algo/ado` except the curve fitting;
`query.py`, `query_plan.py`, `operators/select.py` (SQL generation); `chunker.cpp` (logic on columns, not Arrow memory);
`query_cache.py`; `mixtera_data_collection.py`; `datasets/{jsonl,parquet,web}_dataset.py`; `index/parser/*`;
`local_executor.py`; `network_utils.py`; `server_connection.py`; `server.py`; `local_stub.py` and `mixtera_client.py`
(jobs, streaming, mixture id); `utils.py` (merge, distribution, serialisation); `tokenizing_iterator.py`;
`prefetch_iterator.py`; `torch/mixtera_torch_dataset.py` (iteration and worker status);
`hf/mixtera_hf_dataset.py`; `utils/checkpoint.py`; `utils/feedback.py`; `utils/dataset_utils.py`.

Assumed or left as parameter:

* Distributor: `dill` round trip is the identity, methods are atomic (the server awaits nothing inside them), the query is
  an arbitrary sequence of answers.
* Tokenizers encode the texts of a batch independently.  Code under a lock is one step.
* Readers are an oracle inside `result_chunk`; their own model (C28) works on decoded text, row groups, sample groups:
  decompression, UTF-8 of files, Arrow decoding and tar parsing are not modelled.
* Network: `dill`, `np.save`/`np.load` are parameters with a round-trip hypothesis; TCP delivers bytes in order, in
  arbitrary fragments, possibly cut.
* Server: the LocalStub behind it is a parameter; asyncio locks are first come, first served.
* SQL: token level; names that need quoting, DuckDB's implicit casts and its optimiser are not modelled.
* Chunker: hash maps iterate in an arbitrary order; Arrow encodings of equal values are not distinguished.
* Serialisation: a directory is a path map; a torn file raises when loaded.
* Catalogue: every statement is its own durable transaction; whether a row can be cast is a parameter (in C75: DuckDB's
  casts as described at the head of `SchemaModel`; printing and parsing of lists are parameters).
* Cache: executing a query is any relation between what it sees of the catalogue and a result; SHA-256 is any function.
* Dynamic mixing: see above.
* Hugging Face: the library's splitting and sharding calls are part of `HfModel`.  Shared memory keeps its contents while a
  mapping exists; workers are forked.

Not modelled: `cli.py`, `entrypoint.py`, `ray_executor.py`, ADO's curve fitting (scipy/jax), all
logging, configuration files, DuckDB itself, OS scheduling fairness, memory limits.

## Findings (violations of the listed properties, each proved as a `_refuted` theorem)

* C05 arbitrary mixture over an even number of keys ends only if the keys at odd and even positions of the shuffled order
  are balanced (same number of chunks, or one more at the odd positions; `C05_even_exact`, both directions).  C11 failed calls, changed chunk sizes and schedules break
  resuming.  C14 hierarchical weights are not checked.  C22 zero shares, rounded shares and zero weights.
* C24/C26/C27 failing readers, tokenizer sources and first items are dropped or hang.  C28 parquet drops rows of unsorted
  ranges.  C29 empty byte strings and cuts at a header.  C30 unconditional selects and unknown columns.  C32 separators
  and value order.  C34 crash inside removal, crash while writing, overlapping registration.  C35/C42 half-done
  registrations, duplicate ids.  C36 key equality is not symmetric.  C39/C40/C59/C60 stale and refused feedback, large
  chunks, new or fewer domains, minimum probability.  C41/C44/C48 truncated restore, shared mixture mark, silent end of
  stream.  C49/C50/C52 mixtures after failures, zero entries, scheduled mixtures.  C53–C55 retry and re-checkpointing.
  C57 rows past the end and unreachable servers.  C62 the last sample is repeated; prefetched samples, the start of a chunk
  just fetched and samples of nodes that are behind are lost.  C63 mixtera.id is written before the checkpoint exists; a
  killed first checkpoint spoils later ones; a rejected round leaves the other nodes waiting forever.  C64 a single process
  cannot iterate, iteration ends with an AssertionError, wrong splits share slots.  C65 the status is gone (torch) or
  uninitialised memory (Hugging Face) once the main process stopped iterating.  C66 feedback after one worker ended raises;
  schedules do not forward losses.  C67 nested containers, combined datasets, deep wrappers, missing library.  C68 long queries, lost polls, restarted
  servers.  C69 errors replaced by the generator's.  C71 `file://` locations, subdirectories with a data
  file's name, a missing location takes the name.  C73 a tar file registered with a trailing slash cannot be read.
  C74 an inferred mixture depends on hash-map order where keys are equally large.  C75 RedPajama and FineWeb datasets exclude
  each other, lists become texts, enumerations cannot grow, names differing in case clash.  C76 add_property always raises once the values are calculated.  C78 a restarted
  job is told the old run's success, a lost restore request goes unnoticed, a lost answer splits the job.  C79 equal random
  numbers, exits that unlink another dataset's segments, truncated names on macOS.  C80 compressed members of
  unknown kind are delivered as exhausted streams.  C81 keys with equal texts are merged in the mixture log, a schedule
  logged while arbitrary is shown with later rows, a crash inside a write loses the log.  C82 spawned data loader workers each get the
  whole query, or an AssertionError once the job has delivered something.  C83 the order of the samples depends on the
  machine's number of cores: mixed groups see different samples, jobs moved to another machine lose and repeat some.  C84 with data loader
  workers local feedback never reaches the streams: they keep the mixture of the moment they were started.  C85 every chunk
  reseeds random and numpy.random of the consuming process: its numbers repeat with each chunk of the same keys.  C86 a mixture
  object given to two local jobs is informed about both: the first job continues with the second one's inferred mixture.
* C88: the server looks up a job with the local client's busy wait (`time.sleep` in the event loop, server.py 137, 156, 371, 383
  with local_stub.py 174-182 and utils.py 54-55), so a single request that names an unregistered job stops the server for all clients
  for a minute; most client calls give up after 10 seconds (`C88_unknown_job_refuted`). A job whose query is still executing does the same
  until it is registered (`C88_slow_job_refuted`). `add_property` runs in the event
  loop too (server.py 345) and its own client waits 10 seconds for the answer (server_connection.py 611): any calculation
  that takes longer is reported as a timeout although the property is added (`C88_property_refuted`).
* C47 (remark): the calculation function of a property gets the lines through `np.array(data)` (local_executor.py 113), which drops
  NUL characters at the end of a string; two samples that differ only there look the same to it (`C47_nul_refuted`). Files
  without NUL characters, in particular valid JSON lines, are not affected (`C47_seen`).
* C89: `ignore_initial_steps` ignores one step more than it says (ado.py 726: steps are numbered from 0 and compared with `>`); with
  start_step = ignore_initial_steps + 1, which the constructor accepts, the first fit has no data and every law is [-1, -1, -1]
  (`C89_ignored_refuted`). The Savitzky-Golay filter (on by default) is applied before the ignored steps and the steps without
  samples are removed (703-730): losses that are to be ignored change the fit, and a steep start makes smoothed losses negative,
  whose logarithm raises RuntimeError in the update although all losses are positive (`C89_smoothing_refuted`).
* C90: when no loss falls, the fallback preference is the prior divided by the number of keys (ado.py 528) and so sums to 1/n instead of
  1: the step counts 1/n of a step in the average and in the mixture (`C90_fallback_refuted`: 2/3 : 1/3 instead of
  5/8 : 3/8).  A key that is not in the initial mixture has the prior 0 for good and is never preferred; its only weight is the
  minimum, once the client has sampled it anyway (`C90_no_prior`).  The second adjusted variant measures the time since the
  last new mixture from step 0 at first: the first credit has the weight of all warm-up steps together.
* C91: write_logs opens the file with "w+" and writes in place (ado.py 198-199): a crash or a full disk while it is written loses the whole
  log (`C91_torn_refuted`). A path that cannot be written makes calc_mixture raise after the mixture has been computed and the
  averages have moved on (247, 336), first at step 5000; the mixture is lost and a retry counts the message twice
  (`C91_unwritable_refuted`); the same exception makes a checkpoint (chunk_distributor.py 389) and caching
  (query_result.py 687) fail. The third adjusted variant writes no entry for steps without a new mixture (280-281) although the
  warm-up does (`C91_every_step_refuted`).
* C92: the keys of a strict mixture are served one after the other in the sorted order of their names, each taking greedily what matches
  (query_result.py 360-407); a general key that comes first takes the rows a more special key needs, and the query ends although its
  data holds the next chunk (`C92_shared_refuted`).
* C93: the same greedy service makes a best-effort chunk contain no sample of a special key although the data hold a chunk that follows the
  mixture: the rows it could have had are listed under the general key that is served first (`C93_shared_refuted`).
* C94: the database file is loaded whenever it exists (mixtera_data_collection.py 46-54) although its eight creating statements are separate transactions
  (88-118). A process that dies between them leaves a directory in which no registration or removal ever succeeds and the version is never
  read; registrations return False, yet may insert the dataset row (`C94_torn_creation_refuted`, `C94_torn_example`). Only deleting the file helps.
* C95: a failed registration keeps the name, its rows and its columns. remove_dataset, repeated if interrupted, takes back the rows (`C95_undone`) but
  never the columns (`C95_columns_stay_refuted`), whose types can make a later registration with another parser fail (C75).
