{"id": "C01", "title": "No sample is delivered twice by a query", "statement": "Iterating a QueryResult, no (dataset, file, row) of the query result appears in more than one position of the delivered chunks, whatever mixtures are installed between two chunks.", "quantifier": "all chunker indexes with pairwise disjoint row ranges, all chunk sizes, all sequences of strict, best-effort or arbitrary mixtures sent to the iterator, all numbers of __next__ calls", "why_tests_cant": "the ranges are cut by long-lived coroutines whose state depends on the whole history of sizes requested; a test only sees a few histories", "anchors": ["mixtera/core/query/query_result.py:QueryResult._chunk_generator", "mixtera/core/query/query_result.py:QueryResult._generate_per_mixture_component_chunks"]}
{"id": "C02", "title": "Delivered rows come from the query and sit under a matching key", "statement": "Every row range a chunk lists under a mixture key is contained in a range the query returned for a property combination that the mixture key matches (MixtureKey equality), same dataset and same file.", "quantifier": "all indexes, mixtures and histories of requests", "why_tests_cant": "needs every interleaving of components sharing a key", "anchors": ["mixtera/core/query/query_result.py:QueryResult._chunk_generator", "mixtera/core/query/mixture/mixture_key.py:MixtureKey.__eq__"]}
{"id": "C03", "title": "Strict mixtures are honoured exactly", "statement": "With a strict (non-best-effort) mixture, every chunk delivered holds, for each key of the mixture, exactly the number of rows the mixture asks for, and it reports exactly that mixture.", "quantifier": "all indexes, mixtures, histories", "why_tests_cant": "exactness must survive every way of splitting ranges and every leftover of previous chunks", "anchors": ["mixtera/core/query/query_result.py:QueryResult._chunk_generator"]}
{"id": "C04", "title": "Best-effort chunks are full and honestly labelled", "statement": "With a best-effort mixture, every chunk delivered has exactly chunk_size rows in total and the per-key row numbers it reports are the row numbers it contains.", "quantifier": "all indexes, mixtures with positive shares, histories", "why_tests_cant": "redistribution happens an unbounded number of times in data dependent order", "anchors": ["mixtera/core/query/query_result.py:QueryResult._chunk_generator", "mixtera/utils/utils.py:distribute_by_ratio"]}
{"id": "C05", "title": "Arbitrary mixture delivers the whole query result", "statement": "With an arbitrary mixture, iterating until the end delivers every row of the query result exactly once, in chunks with one key each, of at most chunk_size rows; only the last chunk of a key may be smaller.", "quantifier": "all indexes (any number of keys, datasets, files, ranges), all chunk sizes >= 1, all shuffles of the key order", "why_tests_cant": "completeness is about the last leftovers of each of arbitrarily many components and the round-robin over a shrinking set", "anchors": ["mixtera/core/query/query_result.py:QueryResult._chunk_generator"]}
{"id": "C06", "title": "Chunk ranges stay sorted per file", "statement": "Inside one chunk, key, dataset and file, the list of row ranges is sorted by start and pairwise disjoint, if the query result is.", "quantifier": "all indexes and histories", "why_tests_cant": "depends on the order in which components contribute to the same file", "anchors": ["mixtera/core/query/query_result.py:QueryResult._chunk_generator", "mixtera/utils/utils.py:merge_sorted_lists"]}
{"id": "C07", "title": "A component hands out exactly the rows asked for", "statement": "For one property combination, the rows handed out are the rows of that combination in order, each request gets exactly the requested number of rows except possibly the last which gets what is left; nothing is lost, added or reordered.", "quantifier": "all range lists, all request sequences of positive sizes", "why_tests_cant": "off-by-one errors at range and file borders occur only for particular size combinations", "anchors": ["mixtera/core/query/query_result.py:QueryResult._generate_per_mixture_component_chunks"]}
{"id": "C08", "title": "Iteration gives up instead of spinning", "statement": "If chunks cannot be formed, the iterator ends after at most eleven consecutive failing attempts, and one attempt always terminates.", "quantifier": "all indexes, all mixtures, all histories", "why_tests_cant": "termination for all inputs is not testable", "anchors": ["mixtera/core/query/query_result.py:QueryResult._chunk_generator"]}
{"id": "C09", "title": "Key ids are unique and stable", "statement": "In the key-to-id table of a query, two different keys never share an id, every key of the installed mixtures and of the query result has an id, and an id once given never changes.", "quantifier": "all sequences of mixture installations", "why_tests_cant": "uniqueness is over an unbounded history", "anchors": ["mixtera/core/query/query_result.py:QueryResult._update_key_id_map"]}
{"id": "C10", "title": "Mixture ids identify mixtures", "statement": "Chunk mixture ids never decrease along the stream, stay equal while the requested mixture is unchanged and grow by one exactly when a mixture different from the previously requested one is requested.", "quantifier": "all histories of mixtures and chunks", "why_tests_cant": "history property", "anchors": ["mixtera/core/query/query_result.py:QueryResult._chunk_generator", "mixtera/core/client/mixtera_client.py:MixteraClient.stream_results"]}
{"id": "C11", "title": "A saved query resumes where it stopped", "statement": "Loading a QueryResult that was saved after n delivered chunks yields exactly the chunks the original would have delivered next, for the same future mixtures.", "quantifier": "all save points n, all mixture histories before and after", "why_tests_cant": "every crash/save point in every history", "anchors": ["mixtera/core/query/query_result.py:QueryResult.replay", "mixtera/core/query/query_result.py:QueryResult.to_cache", "mixtera/core/query/query_result.py:QueryResult.from_cache", "mixtera/core/query/query_result.py:QueryResult.__next__"]}
{"id": "C12", "title": "Concurrent consumers of one query partition its chunks", "statement": "Processes that forked a QueryResult and share its counter receive, for every interleaving of their __next__ calls, pairwise different chunks, and together exactly the chunks a single consumer gets.", "quantifier": "all schedules of any number of processes", "why_tests_cant": "all interleavings", "anchors": ["mixtera/core/query/query_result.py:QueryResult.__next__"]}
{"id": "C13", "title": "Static mixtures fill the chunk", "statement": "The per-key row numbers of a StaticMixture sum to chunk_size, are non-negative, and each is the ideal share rounded down or up.", "quantifier": "all chunk sizes and all share tables accepted by the constructor", "why_tests_cant": "rounding corner cases for every table", "anchors": ["mixtera/core/query/mixture/static_mixture.py:StaticMixture"]}
{"id": "C14", "title": "Hierarchical mixtures fill the chunk", "statement": "The row numbers of a HierarchicalStaticMixture sum to chunk_size, and the weight of a leaf is the product of the weights on its path.", "quantifier": "all component trees of any depth and width", "why_tests_cant": "unbounded trees", "anchors": ["mixtera/core/query/mixture/hierarchical_static_mixture.py:HierarchicalStaticMixture"]}
{"id": "C15", "title": "Mixture schedules follow the training step", "statement": "A MixtureSchedule uses the entry with the largest start step not above the current training step (the first entry if none), and the step it uses never goes back whatever the order of feedback.", "quantifier": "all schedules, all feedback sequences", "why_tests_cant": "all feedback orders", "anchors": ["mixtera/core/query/mixture/mixture_schedule.py:MixtureSchedule", "mixtera/core/query/mixture/mixture.py:Mixture.process_client_feedback"]}
{"id": "C16", "title": "Nodes of one data-parallel group see the same data", "statement": "Every node of a data-parallel group is handed, for the same worker id, the same chunk as its n-th chunk.", "quantifier": "all numbers of groups, nodes, workers, all interleavings of requests", "why_tests_cant": "all interleavings", "anchors": ["mixtera/core/query/chunk_distributor.py:ChunkDistributor.next_chunk_for"]}
{"id": "C17", "title": "Groups and workers see disjoint data", "statement": "Chunks handed to different data-parallel groups or to different workers are different chunks of the query, every chunk taken from the query is handed out to at most one (group, worker), and no node gets the same chunk twice.", "quantifier": "all topologies and interleavings", "why_tests_cant": "all interleavings", "anchors": ["mixtera/core/query/chunk_distributor.py:ChunkDistributor.next_chunk_for"]}
{"id": "C18", "title": "Distributor cache is safe and bounded", "statement": "A chunk is dropped from the distributor only after every node of its group has taken it; a request never fails because a chunk was dropped; if the nodes of a group are at most k chunks apart, at most k+1 chunks per worker are cached.", "quantifier": "all interleavings", "why_tests_cant": "needs every schedule of fast and slow nodes", "anchors": ["mixtera/core/query/chunk_distributor.py:ChunkDistributor.next_chunk_for"]}
{"id": "C19", "title": "Checkpoint agreement", "statement": "A checkpoint is started exactly when every node of every group has reported once; all reporters of a round get the same id; rounds have different ids; a node reporting twice in one round is rejected without effect; inconsistent positions are rejected.", "quantifier": "all report orders and histories", "why_tests_cant": "all orders, all rounds", "anchors": ["mixtera/core/query/chunk_distributor.py:ChunkDistributor.checkpoint", "mixtera/core/query/chunk_distributor.py:ChunkDistributor._validate_checkpoint_state"]}
{"id": "C20", "title": "Restoring a checkpoint resumes the stream", "statement": "Take a checkpoint at any moment at which no worker is still waiting for the chunk of an earlier restart, and restore it: each worker of each node gets the chunk it was consuming with the already reported samples (the largest index reported in its group) skipped, followed by exactly the chunks it would have received without the interruption. The process writing the checkpoint may be killed at any moment: a restore then fails or reads exactly the complete checkpoint, older checkpoints stay restorable, and ids are never reused.", "quantifier": "all checkpoint points, all topologies, all continuations, all crash points of the writing process, any number of earlier restarts", "why_tests_cant": "every crash point", "anchors": ["mixtera/core/query/chunk_distributor.py:ChunkDistributor._persist_checkpoint_to_disk", "mixtera/core/query/chunk_distributor.py:ChunkDistributor.from_checkpoint"]}
{"id": "C21", "title": "Chunk streaming delivers each sample once (overall mixture)", "statement": "Iterating a ResultChunk without windowing yields every sample of the chunk exactly once, tagged with its key id; the samples of each file keep their order, and with one reading process the files of a key come one after the other.", "quantifier": "all chunks, all key and file shuffles, any number of reading processes", "why_tests_cant": "arbitrary numbers of keys and exhaustion orders", "anchors": ["mixtera/core/query/result_chunk.py:ResultChunk._iterate_overall_mixture"]}
{"id": "C22", "title": "Windowed streaming respects the mixture", "statement": "Iterating a ResultChunk with a window yields windows in which each key appears exactly as often as the mixture's share of the window; best effort yields every sample exactly once, otherwise iteration stops at the first exhausted key; window shares sum to the window size.", "quantifier": "all chunks, mixtures, window sizes, shuffles", "why_tests_cant": "all exhaustion orders", "anchors": ["mixtera/core/query/result_chunk.py:ResultChunk._iterate_window_mixture", "mixtera/core/query/result_chunk.py:ResultChunk._get_element_counts"]}
{"id": "C23", "title": "Resumed chunk streaming yields the remaining samples", "statement": "A chunk restored with k samples to skip yields the samples the original yields after the first k, with the same sample indices.", "quantifier": "all chunks and k", "why_tests_cant": "all positions", "anchors": ["mixtera/core/query/result_chunk.py:ResultChunk._iterate_samples"]}
{"id": "C24", "title": "Parallel reading does not lose or repeat samples", "statement": "Distributing a chunk's work over reader processes covers every range exactly once for every degree of parallelism, and the reader processes together yield every sample once for every interleaving.", "quantifier": "all workloads, all parallelism degrees, all interleavings", "why_tests_cant": "all interleavings and divisibility cases", "anchors": ["mixtera/core/query/result_chunk.py:ResultChunk._spin_up_readers", "mixtera/core/query/result_chunk.py:ResultChunk._get_process_counts", "mixtera/core/query/result_chunk.py:ResultChunk._get_iterator_mt"]}
{"id": "C25", "title": "Tokenised chunks are consecutive windows of the token stream", "statement": "The tokenizing iterator yields windows of seq_len+1 tokens (overlapping by one, or disjoint) of the concatenated tokenised samples, without losing or inventing tokens except the incomplete tail, independent of the batch size.", "quantifier": "all sample streams, tokenizers, sequence lengths, batch sizes", "why_tests_cant": "all batch border positions", "anchors": ["mixtera/utils/tokenizing_iterator.py:TokenizingIterator"]}
{"id": "C26", "title": "Threaded tokenisation equals synchronous tokenisation", "statement": "For every thread schedule the threaded tokenizing iterator yields the same sequence as the synchronous one.", "quantifier": "all schedules", "why_tests_cant": "all interleavings", "anchors": ["mixtera/utils/tokenizing_iterator.py:ThreadedTokenizingIterator"]}
{"id": "C27", "title": "Prefetching is transparent", "statement": "The prefetching iterator yields the same items in the same order as the iterator it wraps and then stops, and fails if the wrapped iterator fails, for every schedule of producer and consumer.", "quantifier": "all item sequences, all schedules of the prefetch thread", "why_tests_cant": "all interleavings", "anchors": ["mixtera/utils/prefetch_iterator.py:PrefetchFirstItemIterator"]}
{"id": "C28", "title": "Dataset readers return exactly the requested rows", "statement": "Reading row ranges from a jsonl, parquet or webdataset file returns exactly those rows, in range order.", "quantifier": "all files, all range lists, all row-group layouts", "why_tests_cant": "all layouts", "anchors": ["mixtera/core/datacollection/datasets/jsonl_dataset.py", "mixtera/core/datacollection/datasets/parquet_dataset.py", "mixtera/core/datacollection/datasets/web_dataset.py"]}
{"id": "C29", "title": "Network messages survive any fragmentation", "statement": "What is written with the network helpers is what the peer reads, however TCP splits the bytes, and leaves the following message intact; a truncated message is never returned as a complete one.", "quantifier": "all values, all fragmentations, all truncation points", "why_tests_cant": "all splits of all messages", "anchors": ["mixtera/network/network_utils.py"]}
{"id": "C30", "title": "Queries select exactly the matching samples", "statement": "The SQL built by a query selects exactly the samples for which one of the chained selects has all its conditions satisfied; parameters line up with placeholders.", "quantifier": "all condition lists, all samples", "why_tests_cant": "all combinations of operators, list values, array columns and NULLs", "anchors": ["mixtera/core/query/operators/select.py:Select.process_conditions", "mixtera/core/query/query_plan.py"]}
{"id": "C31", "title": "Query intervals cover exactly the selected rows", "statement": "The intervals computed for a query are disjoint, maximal for their file and property combination, half-open, ordered, and cover exactly the selected rows.", "quantifier": "all selected row sets", "why_tests_cant": "all gap patterns", "anchors": ["mixtera/core/query/query.py:Query.execute"]}
{"id": "C32", "title": "Index construction does not depend on parallelism", "statement": "The chunker index built from the query's intervals contains every interval exactly once under its property combination, sorted per file, for every number of threads and batch layout.", "quantifier": "all tables, batch layouts, thread counts", "why_tests_cant": "all partitions", "anchors": ["mixtera/core/query/chunker/src/chunker.cpp"]}
{"id": "C33", "title": "Index serialisation round-trips", "statement": "Saving and loading a chunker index yields the same index for every order in which the worker pool finishes.", "quantifier": "all indexes, all completion orders", "why_tests_cant": "all orders", "anchors": ["mixtera/utils/utils.py:serialize_chunker_index", "mixtera/utils/utils.py:deserialize_chunker_index"]}
{"id": "C34", "title": "Query cache never serves stale or foreign results", "statement": "A cached result returned for a query was produced by an identical query text on the same database version; any completed dataset change makes older results unreachable; this also holds after a crash at any point.", "quantifier": "all operation histories and crash points", "why_tests_cant": "all crash points", "anchors": ["mixtera/core/query/query_cache.py:QueryCache", "mixtera/core/datacollection/mixtera_data_collection.py"]}
{"id": "C35", "title": "Dataset catalogue operations are exact", "statement": "Registering adds exactly the dataset with its files and fails on duplicate names; removing deletes the dataset, its files and samples and nothing else; the version grows with every change.", "quantifier": "all operation histories", "why_tests_cant": "history property", "anchors": ["mixtera/core/datacollection/mixtera_data_collection.py:MixteraDataCollection"]}
{"id": "C36", "title": "Mixture key equality, hash and order are coherent", "statement": "Key equality is reflexive and symmetric, equal keys of the same properties hash alike, key order is a strict order usable for sorting.", "quantifier": "all keys", "why_tests_cant": "algebraic law over all keys", "anchors": ["mixtera/core/query/mixture/mixture_key.py:MixtureKey"]}
{"id": "C37", "title": "Ratio distribution is exact", "statement": "distribute_by_ratio splits n into non-negative parts that sum to n, each the exact share rounded down or up.", "quantifier": "all n and ratio lists summing to one", "why_tests_cant": "all rounding cases", "anchors": ["mixtera/utils/utils.py:distribute_by_ratio"]}
{"id": "C38", "title": "Sorted merge", "statement": "merge_sorted_lists returns a sorted permutation of both inputs.", "quantifier": "all sorted lists", "why_tests_cant": "all interleavings of values", "anchors": ["mixtera/utils/utils.py:merge_sorted_lists"]}
{"id": "C39", "title": "Dynamic mixing accounts losses per key", "statement": "The accumulated losses and counts of a dynamic mixing algorithm are the per-key sums of all accepted feedback, independent of array growth; feedback of a stale mixture does not change the mixture.", "quantifier": "all feedback sequences with arbitrary array lengths", "why_tests_cant": "history property", "anchors": ["mixtera/core/algo/dynamic_mixing/dynamic_mixing.py:DynamicMixingAlgorithm"]}
{"id": "C40", "title": "Dynamic mixtures are distributions", "statement": "Mixtures computed by the averaging algorithm and by ADO are non-negative and sum to one, and after installation fill the chunk exactly.", "quantifier": "all loss/count vectors, all update histories", "why_tests_cant": "numeric property over all histories", "anchors": ["mixtera/core/algo/loss_avg/loss_avg.py", "mixtera/core/algo/ado/ado.py"]}
{"id": "C41", "title": "Server request handling matches the client", "statement": "For every request type, the fields the server reads are the fields the client wrote, in order, and the server's answer is read back by the client as sent; unknown task numbers change nothing.", "quantifier": "all requests and argument values", "why_tests_cant": "all argument values of all request types", "anchors": ["mixtera/network/server/server.py", "mixtera/network/connection/server_connection.py"]}
{"id": "C42", "title": "Query registration status is faithful", "statement": "The status a client polls is 'pending' until the background registration of that job ended, then 'succeeded' exactly if it succeeded, for all interleavings of registrations and polls.", "quantifier": "all interleavings of registrations, restores and polls", "why_tests_cant": "all interleavings", "anchors": ["mixtera/network/server/server.py:MixteraServer._check_query_registration", "mixtera/network/server/server.py:MixteraServer._background_register_query"]}
{"id": "C43", "title": "A job id is executed at most once", "statement": "The local client executes at most one query per job id; further executions are refused and leave the running job untouched.", "quantifier": "all operation histories", "why_tests_cant": "history property", "anchors": ["mixtera/core/client/local/local_stub.py:LocalStub.execute_query"]}
{"id": "C44", "title": "Client mixture id is monotone while streaming", "statement": "While results are streamed, the mixture id the client reports never decreases and is the largest id of any chunk started so far, with any number of workers sharing the client.", "quantifier": "all interleavings of workers", "why_tests_cant": "all interleavings", "anchors": ["mixtera/core/client/mixtera_client.py:MixteraClient.stream_results"]}
{"id": "C45", "title": "Metadata parser output is well-typed", "statement": "Every metadata record a parser adds has a value for each non-nullable property, of the declared multiplicity, and adding a bad record raises an error and stores nothing.", "quantifier": "all records", "why_tests_cant": "all records", "anchors": ["mixtera/core/datacollection/index/parser/metadata_parser.py:MetadataParser.add_metadata"]}
{"id": "C46", "title": "Inferred mixtures describe the query", "statement": "The inferred mixture gives each key of the query result its share of the rows; shares are positive and sum to one.", "quantifier": "all chunker indexes", "why_tests_cant": "all indexes", "anchors": ["mixtera/core/datacollection/index/index_utils.py:infer_mixture_from_chunkerindex", "mixtera/core/query/mixture/inferring_mixture.py:InferringMixture"]}
{"id": "C47", "title": "Property calculation labels every row", "statement": "The local property executor returns exactly one value for each line of each file, with the right file, dataset and line ids, independent of the batch size.", "quantifier": "all files, batch sizes, per-item calc functions", "why_tests_cant": "all batch borders", "anchors": ["mixtera/core/processing/property_calculation/local_executor.py"]}
{"id": "C48", "title": "A stream ends only when the data ends", "statement": "A client sees the end of its chunk stream only if the query has no further chunk for it.", "quantifier": "all histories of requests and failures", "why_tests_cant": "all failure points", "anchors": ["mixtera/network/connection/server_connection.py:ServerConnection._stream_result_chunks", "mixtera/network/server/server.py:MixteraServer._return_next_result_chunk"]}
{"id": "C49", "title": "A mixture installed after a failed attempt takes effect", "statement": "If a chunk could not be built and a new mixture has been installed meanwhile, the next chunk delivered follows the new mixture, and the rows considered for the failed attempt are still delivered later.", "quantifier": "all indexes, mixtures and histories with failing attempts", "why_tests_cant": "needs every history in which an attempt fails", "anchors": ["mixtera/core/query/query_result.py:QueryResult._chunk_generator", "mixtera/core/query/query_result.py:QueryResult.update_mixture"]}
{"id": "C50", "title": "Iterating a query raises no internal error", "statement": "Taking the next chunk either returns a chunk or ends the iteration; it never fails with an arithmetic or lookup error.", "quantifier": "all indexes, all mixtures, all histories", "why_tests_cant": "one unlucky combination of exhausted keys suffices to break it", "anchors": ["mixtera/core/query/query_result.py:QueryResult._generate_chunk"]}
{"id": "C51", "title": "A best-effort query uses the data it has", "statement": "A query with a best-effort mixture first fails to deliver a chunk only when the undelivered rows matching the mixture's keys no longer fill a chunk (what happens after a failed attempt is C49).", "quantifier": "all indexes, best-effort mixtures and histories up to the first attempt that delivers nothing", "why_tests_cant": "must hold for every order of exhaustion of keys", "anchors": ["mixtera/core/query/query_result.py:QueryResult._generate_chunk"]}
{"id": "C52", "title": "A scheduled mixture behaves as it would on its own", "statement": "While an entry of a MixtureSchedule is the current one, chunks are requested as they would be if the entry had been installed directly: same row numbers, same strictness, same use of the query's index.", "quantifier": "all schedules", "why_tests_cant": "all entry kinds at all positions of a schedule", "anchors": ["mixtera/core/query/mixture/mixture_schedule.py:MixtureSchedule"]}
{"id": "C53", "title": "A rejected checkpoint can be retried", "statement": "If a checkpoint is rejected because the nodes are not at the same chunk (or because the query result cannot be copied), the nodes can report again later and get a checkpoint.", "quantifier": "all histories after the rejection", "why_tests_cant": "The claim is about every later history; a test tries one.", "anchors": ["mixtera/core/query/chunk_distributor.py: checkpoint, _validate_checkpoint_state, _start_checkpointing"]}
{"id": "C54", "title": "A checkpoint reported as written can be restored", "statement": "If checkpoint_completed(on_disk=True) returns True for a checkpoint, restoring it succeeds.", "quantifier": "all histories, all interleavings of the writing processes of a job, all crash points", "why_tests_cant": "Interleavings of background processes and crashes cannot be enumerated by tests.", "anchors": ["mixtera/core/query/chunk_distributor.py: _persist_checkpoint_process, checkpoint_completed, from_checkpoint"]}
{"id": "C55", "title": "A restored job can be checkpointed again", "statement": "After a restart a job can be checkpointed and restored again, at every moment and in every mode that supported the first checkpoint.", "quantifier": "all moments after a restart, all topologies", "why_tests_cant": "All checkpoint points and numbers of restarts.", "anchors": ["mixtera/core/query/chunk_distributor.py: from_checkpoint, checkpoint, _persist_checkpoint_process"]}
{"id": "C56", "title": "Samples are indexed under the numbers they are read by", "statement": "The sample number under which a dataset type hands a record to the metadata parser is the row number under which its reader later returns that record, and every row of the file gets exactly one number.", "quantifier": "all files, all row-group and batch layouts", "why_tests_cant": "all files and layouts", "anchors": ["mixtera/core/datacollection/datasets/jsonl_dataset.py:inform_metadata_parser", "mixtera/core/datacollection/datasets/parquet_dataset.py:inform_metadata_parser", "mixtera/core/datacollection/datasets/web_dataset.py:inform_metadata_parser"]}
{"id": "C57", "title": "Reading through the server equals reading locally", "statement": "Reading rows of a jsonl file through the server connection gives the same rows as reading the file directly, whatever line endings the file uses.", "quantifier": "all files, all range lists", "why_tests_cant": "all files", "anchors": ["mixtera/network/connection/server_connection.py:get_file_iterable", "mixtera/network/server/server.py:_read_file", "mixtera/core/filesystem/local_filesystem.py:get_file_iterable"]}
{"id": "C58", "title": "Parser registry", "statement": "A parser registered under a new name (or with overwrite) is the one later created under that name; an existing parser is never replaced without overwrite, other names are never affected, and unknown names raise.", "quantifier": "all registries and operation sequences", "why_tests_cant": "history property", "anchors": ["mixtera/core/datacollection/index/parser/parser_collection.py:MetadataParserFactory"]}
{"id": "C59", "title": "Feedback about new or fewer domains is accepted", "statement": "Once a dynamic mixture knows its keys, loss feedback is accepted whatever number of keys it reports: keys may appear over time and a message may report fewer keys than earlier ones; the mixing algorithm goes on producing mixtures.", "quantifier": "all feedback histories, all array lengths, averaging and every ADO variant", "why_tests_cant": "depends on the history of array lengths and on when scaling laws were fitted", "anchors": ["mixtera/core/algo/dynamic_mixing/dynamic_mixing.py:_update_state", "mixtera/core/algo/ado/ado.py:_update_state", "mixtera/core/algo/ado/ado.py:compute_loss_derivative", "mixtera/core/query/mixture/dynamic_mixture.py:_process_losses"]}
{"id": "C60", "title": "Sampled domains keep the minimum probability", "statement": "In every mixture ADO returns, each domain that has been sampled at least once has probability at least delta_min.", "quantifier": "all feedback histories, fits, derivatives and configurations", "why_tests_cant": "numeric property over all histories", "anchors": ["mixtera/core/algo/ado/ado.py:enforce_min_probability"]}
{"id": "C61", "title": "The text of a query determines the query", "statement": "str(query) is what identifies a query in the cache: two queries with the same text consist of the same selects with the same conditions, whatever strings (quotes, brackets, newlines, any code points), numbers, booleans, None, lists and tuples the conditions contain; so the cache never serves the result of another query.", "quantifier": "all sequences of select calls with arbitrary nested condition values", "why_tests_cant": "Quantifies over all pairs of queries with arbitrary strings inside; a test can only try a few pairs.", "anchors": ["mixtera/core/query/query.py:Query.__str__", "mixtera/core/query/query_plan.py:QueryPlan.__str__, add", "mixtera/core/query/operators/_base.py:Operator.string", "mixtera/core/query/operators/select.py:Select.__str__, __init__, insert", "mixtera/core/query/query_cache.py:get_queryresults_if_cached"]}
{"id": "C62", "title": "A restored training job continues its data exactly", "statement": "For a training job in which every node iterates the torch dataset with its data loader workers, takes checkpoints and is restarted from them: in every interleaving of workers, trainers and reports, and over any number of restarts, what a trainer sees before a checkpoint and after the restart is together exactly the samples of the chunks its worker was assigned, in order, each once and none lost.", "quantifier": "all queries (sequences of chunks), all numbers of data parallel groups, nodes and workers, all interleavings of fetching, yielding, taking and reporting, all numbers of checkpoints and restarts", "why_tests_cant": "Depends on the interleaving of several processes with the checkpoint and on the whole history of restarts; tests restart once, from one schedule.", "anchors": ["mixtera/torch/mixtera_torch_dataset.py:MixteraTorchDataset.__iter__, worker_status", "mixtera/utils/checkpoint.py:handle_mixtera_checkpoint", "mixtera/core/query/chunk_distributor.py:ChunkDistributor", "mixtera/core/query/result_chunk.py:_iterate_samples"]}
{"id": "C63", "title": "A checkpoint call that returned is restorable, and mixtera.id names a restorable checkpoint", "statement": "handle_mixtera_checkpoint, called by every node of a job: once it returns on a node the checkpoint can be restored, mixtera.id in the training checkpoint directory always names a checkpoint that can be restored, and a node that called it eventually returns or raises, in every interleaving of reports, file writes, polls and the process that writes the checkpoint, whenever that process dies.", "quantifier": "all numbers of groups and nodes, fresh and restored jobs, all sequences of checkpoints, all interleavings and all points at which a writing process is killed", "why_tests_cant": "The outcome depends on the order of steps of several nodes and a background process and on when it dies; tests run one order.", "anchors": ["mixtera/utils/checkpoint.py:handle_mixtera_checkpoint", "mixtera/core/query/chunk_distributor.py:checkpoint, _start_checkpointing, _persist_checkpoint_process, checkpoint_completed, from_checkpoint"]}
{"id": "C64", "title": "Processes of a Hugging Face job stream as slots of their own", "statement": "When a training job reads its data through the Hugging Face dataset, every process that starts streaming streams as its own data-parallel group, node and data loader worker; in a job set up as it was registered every slot is streamed by its process and no example is dropped; a job set up otherwise is refused; keys of different samples are different; iteration ends normally when the data ends.", "quantifier": "all numbers of groups, nodes and workers, split or unsplit datasets, all ranks and data loader workers", "why_tests_cant": "must hold for every combination of ranks, workers and library sharding calls", "anchors": ["mixtera/hf/mixtera_hf_dataset.py:_MixteraHFIterable", "mixtera/hf/mixtera_hf_dataset.py:MixteraHFDataset", "mixtera/torch/mixtera_torch_dataset.py:MixteraTorchDataset.worker_id"]}
{"id": "C65", "title": "The worker status is the workers' positions", "statement": "At any time the worker status a training process reads lists, for each data loader worker of its node, the index in its chunk of the last sample it yielded since it started (0 if none), so a checkpoint reports where the workers are.", "quantifier": "all numbers of workers, all interleavings of starts, yields and ends", "why_tests_cant": "the status is shared memory written by several processes; it must be right after every interleaving, including after iteration has ended", "anchors": ["mixtera/torch/mixtera_torch_dataset.py:MixteraTorchDataset.worker_status", "mixtera/torch/mixtera_torch_dataset.py:MixteraTorchDataset.__iter__", "mixtera/torch/mixtera_torch_dataset.py:MixteraTorchDataset._cleanup_shared_memory", "mixtera/utils/checkpoint.py:handle_mixtera_checkpoint"]}
{"id": "C66", "title": "Feedback of a distributed training run", "statement": "Whatever processes of a training job report training steps and losses, in any interleaving: the mixture of the job is told exactly the reports of the processes with data- and tensor-parallel rank 0, once each, in order and with the mixture id they train with; reports without losses change nothing but the training step, which is the largest one reported; repeated steps are harmless; other jobs never notice; a scheduled mixture learns from them as it would on its own; over the network the same happens as in one process.", "quantifier": "all sets of ranks and pipeline stages, all interleavings of reports, data loader workers, other jobs and queries, all fragmentations and cuts of the connection", "why_tests_cant": "the result must be the same for every interleaving of processes the framework does not control", "anchors": ["mixtera/utils/feedback.py:handle_mixtera_feedback", "mixtera/core/client/local/local_stub.py:LocalStub.process_feedback", "mixtera/core/query/mixture/mixture.py:Mixture.process_client_feedback", "mixtera/core/query/mixture/mixture_schedule.py:MixtureSchedule", "mixtera/network/connection/server_connection.py:ServerConnection.receive_feedback", "mixtera/network/server/server.py:MixteraServer._process_feedback"]}
{"id": "C67", "title": "The Mixtera dataset is found in the training loop's objects", "statement": "Given the data loader, dataset or generator of a training loop, checkpointing and feedback find the Mixtera dataset inside it whenever it can be reached through attributes and containers, find nothing otherwise, and always come back, also with cyclic references.", "quantifier": "all object graphs, also cyclic ones, all wrappers and transformations", "why_tests_cant": "wrappers are arbitrary object graphs; a search that misses the dataset or does not end shows only on the right graph", "anchors": ["mixtera/utils/dataset_utils.py:_recover_mixtera_dataset", "mixtera/utils/dataset_utils.py:_find_mixtera_torch_dataset_in_attrs", "mixtera/utils/dataset_utils.py:_get_mixtera_hf_dataset_or_client_from_iterabledataset"]}
{"id": "C68", "title": "Waiting for the server ends with the truth", "statement": "A client that waits for a query execution or a dataset registration is told success exactly when it succeeded on the server and failure exactly when it failed there, and it keeps waiting only while the job is still running.", "quantifier": "all histories of the server, all interleavings of polls with job progress, all lost connections and restarts", "why_tests_cant": "the outcome depends on when polls meet the end of a background job, on job length and on connections breaking", "anchors": ["mixtera/core/client/server/server_stub.py:ServerStub.wait_for_execution", "mixtera/network/connection/server_connection.py:ServerConnection._register_dataset", "mixtera/network/connection/server_connection.py:ServerConnection._check_query_exec_status", "mixtera/network/server/server.py:MixteraServer._check_query_status"]}
{"id": "C69", "title": "A request is sent at most once", "statement": "Whatever connection attempts succeed or fail and whatever goes wrong during the exchange, a client request is sent to the server at most once, a value that the server answered is what the caller gets, and further connections made by the retry logic do not change the server.", "quantifier": "all sequences of failing and succeeding connection attempts, all requests, all failures during the exchange, all server states", "why_tests_cant": "the retry loop surrounds the body of every request through a generator; resending happens only for particular failures at particular points", "anchors": ["mixtera/network/connection/server_connection.py:ServerConnection._connect_to_server", "mixtera/network/server/server.py:MixteraServer._dispatch_client"]}
{"id": "C70", "title": "Registering a location indexes every sample of every data file once", "statement": "After register_dataset(name, loc, class, ...) returned True, the files of the new dataset are exactly the entries of the directory loc that have a data file's name for the dataset class (or the single file loc), each once; the samples of each file are its lines, rows or sample groups, numbered from 0 in file order, each once, with the values the metadata parser found; all other rows are untouched; and it does return True if the name is free, there is a data file and the parser accepts every sample. Reading row i of the file gives the sample indexed under i, and the stored type id leads back to the class.", "quantifier": "all file trees, locations, dataset classes, parsers with a good schema, file contents and catalogue states", "why_tests_cant": "the file listing, the decoders, the parser, the chunked inserts and the readers each number things themselves; agreement must hold for every directory content and file", "anchors": ["mixtera/core/datacollection/mixtera_data_collection.py:MixteraDataCollection.register_dataset", "mixtera/core/filesystem/local_filesystem.py:LocalFileSystem.get_all_files_with_ext", "mixtera/core/datacollection/datasets/jsonl_dataset.py:JSONLDataset.iterate_files", "mixtera/core/datacollection/datasets/dataset.py:Dataset.from_type_id"]}
{"id": "C71", "title": "Every documented kind of location can be registered, and a failure costs nothing", "statement": "A location given as an absolute path or with a file:// prefix is registered if it holds data files; a registration that fails because of the location leaves the dataset name free for another attempt.", "quantifier": "all file trees, locations, dataset classes and catalogue states", "why_tests_cant": "depends on the interplay of URL prefixes, path normalisation and directory entries, and on what was already durable when the listing raised", "anchors": ["mixtera/core/filesystem/filesystem.py:FileSystem.from_path", "mixtera/core/filesystem/local_filesystem.py:LocalFileSystem.is_dir", "mixtera/core/datacollection/mixtera_data_collection.py:MixteraDataCollection.register_dataset"]}
{"id": "C72", "title": "Executing a query lists exactly the matching samples", "statement": "Executing a query on the catalogue gives a result that lists every sample matching the query exactly once, under the sample's own properties (every non-NULL property with its values), and lists nothing else, independently of how the result table is batched, of the number of cores and of thread timing. Iterating the result delivers only matching samples, none twice, under mixture keys equal to their properties; iterating with an arbitrary mixture to the end delivers all of them. A result served from the query cache lists exactly what matches in the present catalogue.", "quantifier": "Every catalogue (columns, samples, NULLs, array values), every chain of selects, every batch layout, core count, thread interleaving and hash map order, every history of next()/update_mixture calls, and every history of registrations, removals, queries and crashes covered by C34", "why_tests_cant": "It composes SQL generation, window functions, a multi-threaded C++ index builder and the chunk generator: a test checks one table and one schedule at a time, with a few values", "anchors": ["mixtera/core/query/query.py:Query.execute", "mixtera/core/query/query_result.py:QueryResult._create_chunker_index", "mixtera/core/query/operators/select.py:Select.generate_sql", "mixtera/core/query/chunker/src/chunker.cpp:create_chunker_index", "mixtera/core/query/query_cache.py:QueryCache"]}
{"id": "C73", "title": "A query delivers the contents of the registered files", "statement": "Streaming the chunks of a query yields, for every row a chunk lists, the dataset's parsing function applied to exactly that line (jsonl), row (parquet) or sample (web dataset) of the file registered for it, once, tagged with the id of the row's key; iterating with an arbitrary mixture to the end yields the contents of exactly the matching samples, each once. The metadata of a result has the path, type and parsing function for every file and dataset with a matching sample. Registering and removing datasets keep every registered sample readable.", "quantifier": "Every catalogue and file tree, every query, every history of next()/update_mixture calls, every chunk, number of readers, shuffle, prefetching or not, and every reading and decompression library behaviour", "why_tests_cant": "It spans registration, SQL, the index builder, the chunk generator and three file readers: tests compare a few literal files with one configuration", "anchors": ["mixtera/core/query/query_result.py:QueryResult._parse_meta", "mixtera/core/query/result_chunk.py:ResultChunk.__iter__", "mixtera/core/datacollection/datasets/jsonl_dataset.py:JSONLDataset.read_ranges_from_files", "mixtera/core/datacollection/datasets/parquet_dataset.py:ParquetDataset.read_ranges_from_files", "mixtera/core/datacollection/datasets/web_dataset.py:WebDataset.read_ranges_from_files", "mixtera/core/datacollection/mixtera_data_collection.py:MixteraDataCollection.register_dataset"]}
{"id": "C74", "title": "Re-running a query is reproducible", "statement": "Executing the same query again on the same samples, with any number of cores, in another process, or after loading its saved index from disk, and iterating it with the same sequence of requests and mixture updates, gives the same chunks: the same samples under the same keys in the same order, the same key ids and mixture ids, until the end. The order in which a mixture lists its keys does not matter.", "quantifier": "all tables, queries, row orders, result batches, core counts, thread interleavings, hash-map iteration orders, mixtures and histories of requests and updates", "why_tests_cant": "The order of hash maps, batches and threads varies between processes; a test sees one order at a time and compares a few chunks, while the claim is about every pair of executions and every history", "anchors": ["mixtera/core/query/query_result.py:_chunk_generator", "mixtera/core/query/query_result.py:_update_key_id_map", "mixtera/utils/utils.py:seed_everything_from_list", "mixtera/utils/utils.py:hash_list", "mixtera/core/query/mixture/inferring_mixture.py:process_index", "mixtera/core/query/mixture/static_mixture.py:parse_user_mixture", "mixtera/core/query/chunker/src/chunker.cpp:create_chunker_index"]}
{"id": "C75", "title": "A dataset's metadata do not depend on the other datasets", "statement": "register_dataset of a dataset whose files its parser can parse succeeds in any catalogue in which the name is free, and stores for each sample exactly the property values the parser gave, whatever datasets with whatever parsers were registered (successfully or not) or removed before.", "quantifier": "all catalogues reachable by registrations and removals with any outcome and any crash point, all schemas and records", "why_tests_cant": "the outcome depends on every schema ever declared in the catalogue and on the database's casts between column types", "anchors": ["mixtera/core/datacollection/mixtera_data_collection.py:_add_columns_to_samples_table", "mixtera/core/datacollection/mixtera_data_collection.py:_insert_samples_with_metadata", "mixtera/core/datacollection/mixtera_data_collection.py:register_dataset", "mixtera/core/datacollection/index/parser/parser_collection.py"]}
{"id": "C76", "title": "Adding a calculated property is all or nothing", "statement": "add_property with a non-empty name, a categorical property, at least two buckets, a positive batch size and local execution returns True, and afterwards every sample of the catalogue has a value for the property and cached query results are recomputed; in every other case it returns False or raises and nothing in the catalogue changes, wherever the call stops.", "quantifier": "all catalogues, arguments, setup and calculation functions, file contents", "why_tests_cant": "The calculation function, the files and the catalogue are arbitrary, and the claim covers every point at which the call may stop; the test suite replaces the executor and the column step by mocks.", "anchors": ["mixtera/core/datacollection/mixtera_data_collection.py:add_property", "mixtera/core/datacollection/mixtera_data_collection.py:_add_columns_to_samples_table", "mixtera/core/processing/property_calculation/executor.py:from_mode", "mixtera/core/processing/property_calculation/local_executor.py:LocalPropertyCalculationExecutor"]}
{"id": "C77", "title": "The built-in parsers record what the samples say", "statement": "A built-in metadata parser stores for a sample exactly the values found at the documented places of the sample (RedPajama: language names and publication date under meta; SlimPajama and The Pile: the set name under meta, one of the known sets; ImageNet: the text of .cls; FineWeb: dump and language en; MS COCO: the sample number modulo three) under the sample's number; a sample without such values raises an exception and stores nothing, and a file's records are those of its samples in order.", "quantifier": "all built-in parsers, samples (any JSON-like value), sample numbers, files and earlier records", "why_tests_cant": "Samples are arbitrary nested values; every shape (missing keys, wrong types, empty lists, unknown sets) has to be considered for each parser.", "anchors": ["mixtera/core/datacollection/index/parser/parser_collection.py:RedPajamaMetadataParser.parse", "mixtera/core/datacollection/index/parser/parser_collection.py:FineWebMetadataParser.parse", "mixtera/core/datacollection/index/parser/metadata_parser.py:add_metadata"]}
{"id": "C78", "title": "Start of a distributed training job", "statement": "When the processes of a distributed job construct their datasets against a server, the job's query is executed (or its checkpoint restored) exactly as asked by process 0 of group 0 and at most once; a process's constructor returns only after that execution succeeded; no two processes are told different outcomes; a process that still waits comes up with its next answered poll once the execution has succeeded; a process whose group or node number is outside the shape it gives never comes up.", "quantifier": "all numbers of processes, all interleavings of their constructors and polls with the server's background tasks and other clients' requests, all lost requests and answers, all query outcomes", "why_tests_cant": "The order in which the processes start, poll and lose connections and in which the server runs its background tasks is scheduled by a cluster; a test sees one of them.", "anchors": ["mixtera/torch/mixtera_torch_dataset.py:MixteraTorchDataset.__init__", "mixtera/core/client/server/server_stub.py:ServerStub.wait_for_execution", "mixtera/network/connection/server_connection.py:ServerConnection._restore_checkpoint", "mixtera/network/server/server.py:MixteraServer"]}
{"id": "C79", "title": "Shared memory of datasets on one machine", "statement": "Datasets constructed on one machine never get in each other's way through their shared memory: constructing one never fails because of another's segments, and the names of a dataset's segments refer to its own segments until it cleans up or its process exits.", "quantifier": "all histories of constructions, clean-ups and process exits on a machine, all job ids, positions and random numbers", "why_tests_cant": "Name clashes depend on random numbers and on the order of exits of unrelated processes.", "anchors": ["mixtera/torch/mixtera_torch_dataset.py:_init_status_shm", "mixtera/torch/mixtera_torch_dataset.py:_cleanup_shared_memory", "mixtera/torch/mixtera_torch_dataset.py:_cleanup_all_shared_memory"]}
{"id": "C80", "title": "A sample of a tar archive is decoded by its member names", "statement": "Reading a sample of a webdataset gives its key and every member, in order: text, class labels, images, json, numpy arrays and pickles decoded according to the last extension, compressed members after decompression, everything else as a stream that reads the member's contents; if a member cannot be decoded the sample raises the first such error.", "quantifier": "all samples (any number of members, any names with an extension, any contents), with and without decoding of images, every behaviour of the decoders, all requested ranges", "why_tests_cant": "names and contents are unbounded; the cases interact (compressed and of unknown kind, images on or off), and examples use the common extensions only", "anchors": ["mixtera/utils/webdataset_utils.py:decode", "mixtera/utils/webdataset_utils.py:IndexedTarSamples.__getitem__", "mixtera/core/datacollection/datasets/web_dataset.py:WebDataset._read_ranges_from_file"]}
{"id": "C81", "title": "The mixture log on disk is right about every delivered chunk", "statement": "For every history of a single consumer of a query with a log directory - calls of next() that deliver or fail, mixtures installed in between, mixture objects changing - the file mixture.log names, for every chunk delivered so far, the mixture the chunk was made with (the entry with the greatest chunk number not above the chunk's), its curr_chunk_idx is one past its last entry, and chunk.idx holds the number of the last delivered chunk; the same holds after a crash at any point between two file writes.", "quantifier": "all query results, key orders, histories of next() and update_mixture, mixture objects and their changes over time, failed calls, and crash points between the writes of a call", "why_tests_cant": "Entries are written only when the mixture changes, before the attempt that may fail; whether the file is right depends on the whole history of changes, failures and retries and on the crash point.", "anchors": ["mixtera/core/query/query_result.py:_persist_mixture_log", "mixtera/core/query/query_result.py:_persist_chunk_idx", "mixtera/core/query/query_result.py:_chunk_generator", "mixtera/core/query/mixture/mixture.py:stringified_mixture"]}
{"id": "C82", "title": "Local data loader workers share the query", "statement": "In local mode the streams of the data loader workers of a job deliver only chunks of the query, each worker in query order, together each chunk at most once; a stream ends only when all chunks are delivered or being fetched, so when the streams have ended every chunk was delivered exactly once and further workers or passes get nothing; no stream raises.", "quantifier": "all queries, numbers of workers and processes, interleavings of their steps, start methods (fork and spawn), start points", "why_tests_cant": "depends on the interleaving of processes around a shared counter and on how worker processes are created", "anchors": ["mixtera/core/client/local/local_stub.py:LocalStub._stream_result_chunks", "mixtera/core/query/chunk_distributor.py:ChunkDistributor._stream_chunks_for_worker", "mixtera/core/query/query_result.py:QueryResult.__next__", "mixtera/core/query/query_result.py:QueryResult.__setstate__"]}
{"id": "C83", "title": "The trainers of a group see the same samples", "statement": "For every worker id the streams of the nodes of a data parallel group give the same samples with the same indices and key ids in the same order, as far as both have got, on whatever machines the nodes run; a job restored on another machine continues the same sequence.", "quantifier": "all histories of requests and checkpoints, topologies, chunks, streaming arguments, machines (numbers of cores)", "why_tests_cant": "depends on the machines of a cluster, and on every history of requests", "anchors": ["mixtera/core/client/mixtera_client.py:MixteraClient.stream_results", "mixtera/core/query/result_chunk.py:ResultChunk._get_process_counts", "mixtera/core/query/chunk_distributor.py:ChunkDistributor.next_chunk_for"]}
{"id": "C84", "title": "Feedback takes effect in local training", "statement": "When a local training loop reports feedback and the job's dynamic mixture changes, the chunks requested afterwards follow the new mixture, with and without data loader workers.", "quantifier": "all queries, mixtures, reports and interleavings of reports with the streams of the workers", "why_tests_cant": "depends on which process the mixture object lives in and on every interleaving", "anchors": ["mixtera/core/client/local/local_stub.py:LocalStub.process_feedback", "mixtera/core/client/local/local_stub.py:LocalStub._stream_result_chunks"]}
{"id": "C85", "title": "Streaming leaves the consumer's random numbers alone", "statement": "What is streamed does not depend on the random state of the consuming process, and taking samples does not change the random numbers the consumer draws: they are those its own seeds give, so differently seeded workers draw different numbers.", "quantifier": "all chunks, all histories of samples taken and numbers drawn from random and numpy.random, all generators and seeds", "why_tests_cant": "concerns every interleaving of draws with samples and every seed", "anchors": ["mixtera/utils/utils.py:seed_everything", "mixtera/core/query/result_chunk.py:ResultChunk._prepare_workloads", "mixtera/core/query/result_chunk.py:ResultChunk._iterate_overall_mixture"]}
{"id": "C86", "title": "Jobs of one local client are independent", "statement": "What calls about one job return (executing it, its chunks, feedback) does not depend on the other jobs executed by the same client, even if they are given the same mixture object.", "quantifier": "all queries, mixture objects, numbers of jobs and interleavings of calls about them", "why_tests_cant": "needs every interleaving of calls about all jobs", "anchors": ["mixtera/core/client/local/local_stub.py:LocalStub.execute_query", "mixtera/core/query/query_result.py:QueryResult.update_mixture", "mixtera/core/query/mixture/inferring_mixture.py:InferringMixture.process_index"]}
{"id": "C87", "title": "Waiting for a job of the local client", "statement": "In a program that uses the local client, waiting for a job's execution answers with the truth at the moment of the answer; a job registered within the 30 seconds is never missed and 'no' is never said before they are over; the wait ends after a bounded number of looks, within one sleep of the deadline or of the job's appearance; a call that needs a job (streaming, metadata, checkpoint) gets the last entry registered for this very job or fails with 'Unknown job' after 60 seconds without one, and never with a KeyError.", "quantifier": "all histories of registrations and restores by other threads, all job ids, all start times, all durations of every step", "why_tests_cant": "The moment at which another thread registers the job relative to the waiting thread's looks at the table and the clock is decided by the scheduler.", "anchors": ["mixtera/utils/utils.py:wait_for_key_in_dict", "mixtera/core/client/local/local_stub.py:LocalStub.wait_for_execution", "mixtera/core/client/local/local_stub.py:LocalStub._get_query_chunk_distributor"]}
{"id": "C88", "title": "Clients of a server do not hold up each other", "statement": "A request to the server is answered before its client gives up, however long other clients' requests compute: how long queries execute, datasets are registered and checkpoints are restored changes no answer time, and neither a property calculation nor a request about an unknown job delays anybody else.", "quantifier": "all queues of requests of all kinds, all arrival times and durations, all histories of the job table", "why_tests_cant": "The load and the arrival times are the environment's; a test sees one queue.", "anchors": ["mixtera/network/server/server.py:MixteraServer._dispatch_client", "mixtera/network/server/server.py:MixteraServer._return_next_result_chunk", "mixtera/network/server/server.py:MixteraServer._add_property", "mixtera/network/connection/server_connection.py:ServerConnection._add_property"]}
{"id": "C89", "title": "A domain's scaling law is fitted to its own history", "statement": "With ADO, at the step start_step and every scaling_law_update_interval steps after it, an update that succeeds gives every domain a scaling law fitted to the domain's own history and to nothing else: one point per step that has a loss for the domain (with use_same_step_size a missing loss repeats the last one) and by which it was sampled, leaving out the first ignore_initial_steps steps and then keeping every subsampling_interval-th; the point is the number of tokens credited to the domain up to that step (in samples, if count_normalizer asks for it) and the loss per token of that step (smoothed over the points that are used, if savgol is on). At other steps the laws stay. The derivative is taken at the tokens of the newest point. A fit of positive losses does not fail before the optimiser does.", "quantifier": "every history of feedback messages that never get narrower, every configuration, every rounding, every optimiser", "why_tests_cant": "the points depend on the whole history, on imputation, thinning and padding for domains that appear later; a test sees a few steps only", "anchors": ["mixtera/core/algo/ado/ado.py:AdoDynamicMixing.fit_scaling_laws", "mixtera/core/algo/ado/ado.py:fit_scaling_law_for_domain", "mixtera/core/algo/ado/ado.py:AdoDynamicMixing.compute_loss_derivative", "mixtera/core/algo/ado/ado.py:AdoDynamicMixing._update_state"]}
{"id": "C90", "title": "ADO's mixture follows its averages", "statement": "In exact arithmetic, each mixture that ADO hands out is a function of its own history alone: the preference of a step is proportional to prior times credit (to the power s) times how much the key's loss still falls; the mixture is gamma2 of the preference and the rest of the average, raised to the minimum for the sampled keys and normalised; the average after step T is the average of all preferences so far, the prior standing for the steps before the first mixture; the credit starts as the prior and moves towards each mixture with weight gamma1 (in the adjusted variants only when the client has started to work with a new mixture, with the weight of all steps since the last one). Preferences and averages are distributions.", "quantifier": "every history of accepted feedback messages that never get narrower, every variant and configuration, every optimiser, derivative and power function", "why_tests_cant": "the arrays depend on the whole history, on padding for keys that appear later and on the mixture ids; a test sees a few steps only", "anchors": ["mixtera/core/algo/ado/ado.py:AdoDynamicMixing.calc_mixture", "mixtera/core/algo/ado/ado.py:AdoDynamicMixing.compute_rho_t", "mixtera/core/algo/ado/ado.py:AdoDynamicMixing.update_pi_t", "mixtera/core/algo/ado/ado.py:AdoDynamicMixing.update_pi_bar_t", "mixtera/core/algo/ado/ado.py:AdoDynamicMixing.update_h_t", "mixtera/core/algo/ado/ado.py:AdoDynamicMixing._update_state"]}
{"id": "C91", "title": "ADO's log is complete, and logging changes nothing", "statement": "With a logging path, ADO behaves as without one. The log has one entry for every step, in order, with the step's number, the counts and losses of all messages so far and, from the first mixture on, the mixture handed out and the credits, averages and scaling laws after the step; one line per domain for every fit; and the counts of every message. The file at the path always holds a whole log, no older than the last checkpoint or caching and than the last step whose number is a multiple of 5000.", "quantifier": "every history of feedback messages and saves, every variant and configuration, every optimiser, every rounding, every outcome of every write (done, refused, cut off)", "why_tests_cant": "entries depend on the whole history, and writes happen at step 5000 or fail in the environment; a test writes once after a few steps", "anchors": ["mixtera/core/algo/ado/ado.py:AdoDynamicMixing.write_logs", "mixtera/core/algo/ado/ado.py:AdoDynamicMixing.calc_mixture", "mixtera/core/algo/ado/ado.py:AdoDynamicMixing.fit_scaling_laws", "mixtera/core/algo/ado/ado.py:AdoDynamicMixing._update_state", "mixtera/core/query/mixture/dynamic_mixture.py:DynamicMixture.write_logs", "mixtera/core/query/chunk_distributor.py:ChunkDistributor._start_checkpointing", "mixtera/core/query/query_result.py:QueryResult.to_cache"]}
{"id": "C92", "title": "A query delivers as many chunks as its data allow", "statement": "While one mixture is in force, the i-th call for a chunk (counted from 1) delivers one exactly if the query result has i times the data the mixture asks for: for a strict mixture, i times the requested number of samples with the properties of each of its keys; for a best-effort mixture, i full chunks of samples with the properties of any of its keys. So a query delivers the largest number of chunks its matching samples allow, and a query told to stop at the first failure ends there.", "quantifier": "Every table of samples and query, every strict or best-effort mixture, every shuffle, every number of calls and of mixture objects with these contents", "why_tests_cant": "The number of chunks follows from the data only over whole histories of calls on arbitrary data; tests fix one data set, and the greedy choice among property combinations only starves a key for particular overlaps.", "anchors": ["mixtera/core/query/query_result.py:_chunk_generator", "mixtera/core/query/query_result.py:__next__", "mixtera/core/query/mixture/mixture_key.py:__eq__"]}
{"id": "C93", "title": "A best-effort query keeps its mixture as long as its data last", "statement": "A best-effort mixture gives up its proportions only when it must. As long as every call has given a chunk, each chunk holds for every key of the mixture in force either at least the samples the mixture asks for, or all samples with the key's properties have been delivered; a chunk that fills the mixture's size and differs from the mixture therefore shows that the samples of one of its keys are used up. The first i chunks follow the mixtures in force at them exactly if and only if the query has, for every key, as many samples as these mixtures ask of it together (with one mixture: i times what it asks).", "quantifier": "Every table of samples and query, every best-effort mixture, every shuffle, every history of calls, also with mixtures that change between calls", "why_tests_cant": "Redistribution is decided inside an attempt, over all property combinations a key matches and over what earlier chunks left; a test fixes one data set and one point in the history, and the proportions may break at a later chunk or only for particular overlaps.", "anchors": ["mixtera/core/query/query_result.py:_chunk_generator", "mixtera/core/query/query_result.py:__next__", "mixtera/core/query/mixture/mixture.py:chunk_size"]}
{"id": "C94", "title": "A Mixtera directory can be used again after a crash at any point", "statement": "After a process that uses a directory dies at any point, also while the directory's database is being created, a new process can open the directory, finds the catalogue of the completed statements, and can read the version and list, check, register and remove datasets on it as usual.", "quantifier": "every history of openings, calls and crashes, and every point of a call or of the creation at which the process dies", "why_tests_cant": "Tests open a fresh directory or a complete one; which states a crash can leave, and what each later call does on them, ranges over all crash points and histories.", "anchors": ["mixtera/core/datacollection/mixtera_data_collection.py:__init__", "mixtera/core/datacollection/mixtera_data_collection.py:_init_database", "mixtera/core/datacollection/mixtera_data_collection.py:get_db_version"]}
{"id": "C95", "title": "A registration that failed or was interrupted can be undone and made again", "statement": "After register_dataset returned False, raised, or died at any point, remove_dataset of the name (itself possibly interrupted and repeated) leaves exactly the datasets, files and samples there were before the registration, and the dataset can then be registered as if nothing had happened.", "quantifier": "every consistent catalogue, every outcome and crash point of the registration, any number of removals each ending anywhere, every later registration", "why_tests_cant": "The states left behind are as many as the durable statements of a registration and a removal; tests remove only datasets that were registered completely.", "anchors": ["mixtera/core/datacollection/mixtera_data_collection.py:register_dataset", "mixtera/core/datacollection/mixtera_data_collection.py:remove_dataset", "mixtera/core/datacollection/mixtera_data_collection.py:_add_columns_to_samples_table"]}
