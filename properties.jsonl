{"id": "C01", "title": "Table never holds more than max_size items", "statement": "After every completed public operation on a table (insert/assign, sample, mutate, reset, restore) the number of items reported by Table::size() / TableInfo.current_size is at most max_size.", "quantifier": "every table configuration (any sampler, remover, limiter, max_size>=0), every finite history of public calls with arbitrary keys, priorities, random choices and clock readings", "why_tests_cant": "Tests exercise a handful of histories; the bound must survive every interleaving of inserts, evictions, sampling removals, explicit deletes and error returns.", "anchors": ["reverb/cc/table.cc:InsertOrAssign", "reverb/cc/table.cc:DeleteItem", "reverb/cc/table.cc:SampleFlexibleBatch", "reverb/cc/table.cc:MutateItems", "reverb/cc/table.cc:Reset", "reverb/cc/table.cc:InsertCheckpointItem"]}
{"id": "C02", "title": "Limiter accounting matches the table and sampling never runs on an empty table", "statement": "At every quiescent point the rate limiter's inserts minus deletes equals the number of items in the table, and whenever the limiter lets a sample call proceed the sampler has an item to return: no CHECK failure is reachable through the public API.", "quantifier": "every history of public calls whose priorities are accepted by the configured selectors", "why_tests_cant": "A crash needs one particular history where the counters drift from the contents; tests can only try some histories.", "anchors": ["reverb/cc/rate_limiter.cc:CanSample", "reverb/cc/table.cc:SampleFlexibleBatch", "reverb/cc/table.cc:DeleteItem", "reverb/cc/selectors/fifo.cc:Sample"]}
{"id": "C03", "title": "Rate limiter keeps the sample/insert ratio inside the configured window", "statement": "Whenever a sample completes, the table held at least min_size_to_sample items just before it and (completed inserts)*samples_per_insert - (completed samples) >= min_diff just after it. Whenever an insert of a new item completes, either the table holds at most min_size_to_sample items or inserts*samples_per_insert - samples <= max_diff.", "quantifier": "every history of public calls since creation or the last reset; counts are those of the completed calls in the history", "why_tests_cant": "The window is a global invariant over unbounded histories with deletes and batch sampling; tests check a few prefixes.", "anchors": ["reverb/cc/rate_limiter.cc:CanInsert", "reverb/cc/rate_limiter.cc:CanSample", "reverb/cc/rate_limiter.cc:AwaitAndFinalizeSample", "reverb/cc/rate_limiter.h"]}
{"id": "C04", "title": "A limiter accepted by the Python constructors never blocks inserts and samples at the same time", "statement": "For every SampleToInsertRatio/MinSize/Queue/Stack limiter whose constructor succeeds, in every state reached by any history at least one of 'insert one new item' and 'sample one item' can proceed.", "quantifier": "every parameter choice accepted by the constructor, every history of calls", "why_tests_cant": "Deadlock freedom quantifies over all parameters and reachable counter values.", "anchors": ["reverb/rate_limiters.py:SampleToInsertRatio", "reverb/rate_limiters.py:MinSize", "reverb/rate_limiters.py:Queue", "reverb/cc/rate_limiter.cc:CanInsert"]}
{"id": "C05", "title": "max_times_sampled is respected exactly", "statement": "With max_times_sampled = m > 0, between the insertion of an item and its removal the item is returned by at most m samples, the times_sampled values reported for it are 1,2,3,... in order, and the item is removed by the very call that returns it for the m-th time.", "quantifier": "every table with m>0, every history of calls, every item", "why_tests_cant": "Needs the per-item count to be right across updates, evictions, batches and re-insertion of the same key.", "anchors": ["reverb/cc/table.cc:SampleFlexibleBatch", "reverb/cc/table.cc:SampleInternal"]}
{"id": "C06", "title": "Insert evicts exactly what the remover selects and nothing else", "statement": "Inserting a new item into a table with fewer than max_size items removes nothing; into a full table it removes exactly one item, the one selected by the remover among the old items and the new one. All other items keep their priority, data, times_sampled and insertion time.", "quantifier": "every reachable table state, every item, every random choice of the remover", "why_tests_cant": "Frame conditions over the whole content must hold in every state.", "anchors": ["reverb/cc/table.cc:InsertOrAssign", "reverb/cc/table.cc:DeleteItem"]}
{"id": "C07", "title": "Inserting an existing key only updates its priority", "statement": "InsertOrAssign with a key present in the table changes that item's priority and nothing else: not the size, the data, the insertion time, times_sampled, the limiter counters, the episode counters or any other item; and it is never blocked by the rate limiter.", "quantifier": "every reachable state, every present key, every accepted priority", "why_tests_cant": "Frame property over all state.", "anchors": ["reverb/cc/table.cc:InsertOrAssign", "reverb/cc/table.cc:UpdateItem"]}
{"id": "C08", "title": "A sample always returns an item that is currently in the table", "statement": "Each sampled item is an item of the table at the moment of sampling, with its current data and priority; an item that was deleted, evicted or exhausted is never returned again unless re-inserted. Sampler and remover always hold exactly the table's keys.", "quantifier": "every history of calls with accepted priorities, every random choice", "why_tests_cant": "Three data structures must agree after every history.", "anchors": ["reverb/cc/table.cc:SampleFlexibleBatch", "reverb/cc/table.cc:DeleteItem", "reverb/cc/selectors/interface.h"]}
{"id": "C09", "title": "FIFO tables return and evict the oldest item", "statement": "With a Fifo sampler (remover) the item returned by sample (evicted) is the one present in the table whose insertion call completed first, whatever updates, deletes and samples happened in between.", "quantifier": "every history of insert/update/delete/sample/clear operations", "why_tests_cant": "Order must be preserved through arbitrary deletions in the middle.", "anchors": ["reverb/cc/selectors/fifo.cc"]}
{"id": "C10", "title": "LIFO tables return and evict the newest item", "statement": "With a Lifo sampler (remover) the item returned (evicted) is the one present whose insertion completed last.", "quantifier": "every history of selector operations", "why_tests_cant": "Order must be preserved through arbitrary deletions.", "anchors": ["reverb/cc/selectors/lifo.cc"]}
{"id": "C11", "title": "Heap tables return an item of extreme priority, ties to the least recently touched", "statement": "With MinHeap (MaxHeap) the selected item has minimal (maximal) current priority among all items present and among those with that priority it is the one whose priority was inserted/updated earliest.", "quantifier": "every history of insert/update/delete/clear on the selector, any finite priorities", "why_tests_cant": "The array heap with stored back-indices must stay a heap after arbitrary middle deletions and re-prioritisation.", "anchors": ["reverb/cc/selectors/heap.cc", "reverb/cc/selectors/heap.h", "reverb/cc/support/intrusive_heap.h"]}
{"id": "C12", "title": "Uniform selector gives every item the same chance", "statement": "With a Uniform selector the map from the drawn index in [0,size) to the returned key is a bijection onto the keys present, and the reported probability is 1/size.", "quantifier": "every history of selector operations, every draw", "why_tests_cant": "Swap-with-last deletion must keep array and index map mutually inverse after any history.", "anchors": ["reverb/cc/selectors/uniform.cc"]}
{"id": "C13", "title": "Prioritized selector draws each item with probability p^e / sum p^e", "statement": "For exact arithmetic: with total weight W>0, the draws u in [0,1) are partitioned so that key k is returned on a set of measure w(k)/W where w(k)=priority^exponent; the reported probability equals w(k)/W; zero weight keys are never returned while W>0; with W=0 the selector is uniform.", "quantifier": "every history of insert/update/delete/clear, every draw u", "why_tests_cant": "Statistical tests cannot establish the exact measure, and the partial-sum tree must be right after any history.", "anchors": ["reverb/cc/selectors/prioritized.cc"]}
{"id": "C14", "title": "Prioritized selector never selects outside the table whatever the rounding", "statement": "Sample on a non-empty prioritized selector returns a key currently present (the internal bounds CHECK never fails) even when additions and subtractions are rounded by an arbitrary monotone rounding that keeps 0 exact.", "quantifier": "every history, every draw, every such rounding function", "why_tests_cant": "Float drift depends on the entire history of updates.", "anchors": ["reverb/cc/selectors/prioritized.cc:Sample", "reverb/cc/selectors/prioritized.cc:SetNode"]}
{"id": "C15", "title": "Episode counters are exact", "statement": "TableInfo.num_episodes is the number of distinct episodes referenced by items in the table; num_deleted_episodes counts, since the last reset, how many times an episode lost its last referencing item.", "quantifier": "every history of calls", "why_tests_cant": "Reference counts must be balanced over all histories including eviction of the item just inserted.", "anchors": ["reverb/cc/table.cc:InsertOrAssign", "reverb/cc/table.cc:DeleteItem", "reverb/cc/table.cc:info"]}
{"id": "C16", "title": "num_unique_samples counts items sampled at least once", "statement": "TableInfo.num_unique_samples equals the number of item insertions since the last reset whose item has been sampled at least once.", "quantifier": "every history of calls", "why_tests_cant": "Unbounded history property.", "anchors": ["reverb/cc/table.cc:SampleFlexibleBatch", "reverb/cc/table.cc:Reset"]}
{"id": "C17", "title": "Checkpoint and restore round-trips a table", "statement": "Restoring a table from its checkpoint gives a table with the same items, priorities, times_sampled, insertion times, limiter counters, episode and unique-sample counters, and position based selectors (fifo, lifo) in the same order provided insertion times are strictly increasing.", "quantifier": "every reachable table state, every order in which the hash map enumerates items, every sort that returns a sorted permutation", "why_tests_cant": "Round trip over all states and all enumeration orders.", "anchors": ["reverb/cc/table.cc:Checkpoint", "reverb/cc/table.cc:InsertCheckpointItem", "reverb/cc/platform/tfrecord_checkpointer.cc:Load"]}
{"id": "C18", "title": "Loading a checkpoint written by Save never crashes the server", "statement": "Loading the files written by a successful Save of any set of tables with distinct names passes every CHECK in the loader (chunks found, no duplicate keys, table not over-full, selectors accept the priorities) and succeeds.", "quantifier": "every set of reachable table states", "why_tests_cant": "The loader CHECK-fails (aborts) on any mismatch; tests cover few contents.", "anchors": ["reverb/cc/platform/tfrecord_checkpointer.cc:Load", "reverb/cc/platform/tfrecord_checkpointer.cc:Save", "reverb/cc/table.cc:InsertCheckpointItem"]}
{"id": "C19", "title": "A crash during Save never loses the previous checkpoint", "statement": "If a complete checkpoint exists and checkpoint directory names increase over time, then after a crash or I/O error at any point of Save, LoadLatest finds a complete checkpoint: the previous one or the new one; and a successful Save leaves the new one as the one LoadLatest loads.", "quantifier": "every crash point of Save, every earlier directory content, every keep_latest>=1", "why_tests_cant": "Crash points and stale partial directories cannot be enumerated by tests.", "anchors": ["reverb/cc/platform/tfrecord_checkpointer.cc:Save", "reverb/cc/platform/tfrecord_checkpointer.cc:LoadLatest"]}
{"id": "C20", "title": "Extensions observe a faithful event stream", "statement": "The sequence of OnInsert/OnSample/OnUpdate/OnDelete/OnReset calls delivered to a synchronous extension determines the table content: replaying inserts and deletes (and resets) gives exactly the keys in the table, every delete is preceded by a matching insert, and there is one OnSample per sampled item and one OnUpdate per applied update.", "quantifier": "every history of calls with accepted priorities", "why_tests_cant": "Event/state agreement over unbounded histories.", "anchors": ["reverb/cc/table.cc:ExtensionOperation", "reverb/cc/table_extensions/interface.h"]}
{"id": "C21", "title": "MutateItems applies deletes then updates and ignores unknown keys", "statement": "MutateItems(updates, deletes) removes exactly the present keys listed in deletes, then sets the priority of exactly the present remaining keys listed in updates (last one wins), ignores all unknown keys, and leaves everything else unchanged.", "quantifier": "every reachable state, all lists of updates and deletes including duplicates and overlaps", "why_tests_cant": "Arbitrary lists and states.", "anchors": ["reverb/cc/table.cc:MutateItems", "reverb/cc/table.h"]}
{"id": "C22", "title": "Reset is equivalent to a fresh table", "statement": "After Reset the table behaves for every later sequence of calls exactly like a newly created table with the same configuration (fifo, lifo, uniform, heap and prioritized selectors).", "quantifier": "every reachable state, every subsequent history", "why_tests_cant": "Observational equivalence over all futures.", "anchors": ["reverb/cc/table.cc:Reset", "reverb/cc/selectors/heap.cc:Clear"]}
{"id": "C23", "title": "SampleFlexibleBatch is a run of single samples", "statement": "A successful batch sample of size b returns between 1 and b items, is equivalent to performing that many single samples in a row, and stops early only because the limiter forbids another sample.", "quantifier": "every reachable state, every b>=1, every random choice", "why_tests_cant": "All states and batch sizes.", "anchors": ["reverb/cc/table.cc:SampleFlexibleBatch"]}
{"id": "C24", "title": "Sampled metadata is consistent", "statement": "For each sampled item the reported table_size is the number of items in the table when it was drawn (including it), times_sampled counts this sample, priority is the last accepted priority and probability is that of the sampler at that moment.", "quantifier": "every sample in every history", "why_tests_cant": "Needs agreement of selector and table state in every state.", "anchors": ["reverb/cc/table.cc:SampleFlexibleBatch"]}
{"id": "C25", "title": "No lost wake-ups in the rate limiter", "statement": "With blocking calls without deadline, in every schedule: whenever no thread is runnable or about to run, no thread is blocked although the limiter would let its call proceed.", "quantifier": "any number of threads, every interleaving of lock, wait, signal and completion", "why_tests_cant": "Lost wake-ups depend on rare interleavings.", "anchors": ["reverb/cc/rate_limiter.cc:MaybeSignalCondVars", "reverb/cc/rate_limiter.cc:AwaitCanInsert", "reverb/cc/table.cc:InsertOrAssign"]}
{"id": "C26", "title": "A rejected priority leaves the table unchanged", "statement": "If an insert or update is answered with InvalidArgument because the selector rejects the priority (NaN or negative with a Prioritized selector), the table is left as it was before the call.", "quantifier": "every reachable state, every rejected priority", "why_tests_cant": "Error-path atomicity in every state.", "anchors": ["reverb/cc/table.cc:InsertOrAssign", "reverb/cc/table.cc:UpdateItem", "reverb/cc/selectors/prioritized.cc:CheckValidPriority"]}
{"id": "C27", "title": "Table operations are atomic with the extension worker enabled", "statement": "With the table/extension worker enabled, concurrent MutateItems, worker inserts and worker samples behave as if executed one at a time; in particular no item is deleted twice.", "quantifier": "every interleaving, including the ones where the extension request buffer is full", "why_tests_cant": "Requires a full buffer at a precise moment.", "anchors": ["reverb/cc/table.cc:ExtensionOperation", "reverb/cc/table.cc:DeleteItem", "reverb/cc/table.cc:ExtensionsWorkerLoop"]}
{"id": "C28", "title": "Every asynchronous sample request is answered exactly once", "statement": "With the table worker, each request passed to EnqueSampleRequest is finalised exactly once: with OK and exactly the requested number of samples, with a timeout after its deadline, or with Cancelled after Close; requests are served in FIFO order.", "quantifier": "every sequence of worker iterations, arrivals, deadlines and closing", "why_tests_cant": "Needs all interleavings of batches, deadlines and cancellation.", "anchors": ["reverb/cc/table.cc:TableWorkerLoop", "reverb/cc/table.cc:EnqueSampleRequest", "reverb/cc/table.cc:FinalizeSampleRequest"]}
{"id": "C29", "title": "Asynchronous inserts are applied once, in order, and blocked callers are woken", "statement": "With the table worker every item passed to InsertOrAssignAsync before Close is applied to the table at most once and in arrival order, and every caller told not to send more is notified once its turn comes or the table is closed.", "quantifier": "every sequence of arrivals and worker iterations", "why_tests_cant": "All interleavings.", "anchors": ["reverb/cc/table.cc:InsertOrAssignAsync", "reverb/cc/table.cc:TableWorkerLoop"]}
{"id": "C30", "title": "Table.queue is a bounded exactly-once FIFO queue", "statement": "A table created by Table.queue(n) (Fifo/Fifo, max_times_sampled=1, limiter Queue(n)) and used only through insert of fresh keys and sample returns each inserted item exactly once in insertion order, never evicts an unsampled item and never holds more than n items.", "quantifier": "every n>=1 and every history of inserts and samples", "why_tests_cant": "Exactly-once over unbounded histories.", "anchors": ["reverb/server.py:Table.queue", "reverb/rate_limiters.py:Queue", "reverb/cc/table.cc"]}
{"id": "C31", "title": "Delta encoding is lossless", "statement": "Decoding a delta-encoded tensor returns the original tensor for every integer dtype width and sign, including wrap-around values, and leaves non integer or rank<2 tensors untouched.", "quantifier": "every tensor with first dimension >=1, every width", "why_tests_cant": "All values including overflow.", "anchors": ["reverb/cc/tensor_compression.cc:DeltaEncode"]}
{"id": "C32", "title": "Bounded queue is a FIFO of bounded size that loses nothing", "statement": "Queue delivers exactly the successfully pushed elements, each once, in push order; holds at most capacity elements; after SetLastItemPushed the remaining elements are still delivered by Pop and then Pop returns false; after Close nothing is delivered.", "quantifier": "every capacity, every interleaving of completed push/pop/close calls", "why_tests_cant": "Ring-buffer index arithmetic over all histories.", "anchors": ["reverb/cc/support/queue.h"]}
{"id": "C33", "title": "PopBatch returns the available elements", "statement": "PopBatch(n) on a queue which holds at least n elements returns the n oldest elements, also after SetLastItemPushed.", "quantifier": "every queue state", "why_tests_cant": "All states.", "anchors": ["reverb/cc/support/queue.h:PopBatch"]}
{"id": "C34", "title": "Table.stack is a bounded exactly-once LIFO stack", "statement": "A table created by Table.stack(n) used only through insert of fresh keys and sample behaves as a bounded stack: each sample returns and removes the most recently inserted item still present, nothing is evicted and at most n items are held.", "quantifier": "every n>=1 and every history of inserts and samples", "why_tests_cant": "Unbounded histories.", "anchors": ["reverb/server.py:Table.stack", "reverb/rate_limiters.py:Stack", "reverb/cc/table.cc"]}
{"id": "C35", "title": "ChunkStore returns every chunk that is alive", "statement": "While any owner holds a chunk inserted under key k, ChunkStore::Get(k) returns that chunk and Insert(k) returns the same chunk; background cleanup of expired keys does not influence the results of Get and Insert.", "quantifier": "every interleaving of inserts, drops of the last owner and cleanup runs", "why_tests_cant": "Race between cleanup and re-insertion.", "anchors": ["reverb/cc/chunk_store.cc", "reverb/cc/chunk_store.h"]}
{"id": "C36", "title": "A timestep trajectory covers exactly the requested window", "statement": "FlatTimestepTrajectory(chunks, offset, length), for 0<=offset and offset+length within the chunks, produces for every column slices whose concatenation is rows offset..offset+length-1 of the concatenated chunks, each slice within its chunk; and IsTimestepTrajectory accepts it with TimestepTrajectoryOffset = offset.", "quantifier": "every list of chunk lengths, every window", "why_tests_cant": "All boundaries.", "anchors": ["reverb/cc/support/trajectory_util.cc:FlatTimestepTrajectory"]}
{"id": "C37", "title": "Writer::CreateItem(n) references exactly the last n appended timesteps", "statement": "For the (legacy) Writer, an item created with num_timesteps=n, once its chunks are finalised, unpacks to exactly the last n timesteps appended before the call, in order.", "quantifier": "every chunk_length, max_timesteps and history of Append/CreateItem/Flush", "why_tests_cant": "Chunk boundaries after flush and trimming of old chunks.", "anchors": ["reverb/cc/writer.cc:CreateItem", "reverb/cc/writer.cc:Finish"]}
{"id": "C38", "title": "Chunker cells always resolve to the data appended", "statement": "Every cell reference returned by Chunker::Append that is still alive (within the last num_keep_alive_refs appends) eventually points to a chunk row (key, offset) whose content is the appended tensor; chunks hold at most max_chunk_length rows; no two rows share (key, offset).", "quantifier": "every history of appends, flushes, config changes and resets", "why_tests_cant": "Sliding window of references vs buffer flushes.", "anchors": ["reverb/cc/chunker.cc"]}
{"id": "C39", "title": "A created trajectory item samples back the referenced cells", "statement": "For TrajectoryWriter, the column of a sampled item contains exactly the tensors of the references passed to CreateItem, in order.", "quantifier": "every list of live references per column", "why_tests_cant": "All reference patterns, including gaps and repetitions.", "anchors": ["reverb/cc/trajectory_writer.cc:MergeAdjacent", "reverb/cc/trajectory_writer.cc:CreateItem", "reverb/cc/sampler.cc:AsSample"]}
{"id": "C40", "title": "Writers never reference a chunk the server has dropped", "statement": "For both writers, along every run of the insert protocol (chunk uploads, items with keep_chunk_keys, reconnects) the server finds every chunk referenced by a received item and its 'kept chunks' consistency CHECK never fails.", "quantifier": "every history of appends, items, flushes and stream failures", "why_tests_cant": "Protocol invariant between two programs.", "anchors": ["reverb/cc/trajectory_writer.cc:SendItem", "reverb/cc/trajectory_writer.cc:GetKeepKeys", "reverb/cc/writer.cc:WritePendingData", "reverb/cc/reverb_service_impl.cc:InsertStreamInternal", "reverb/cc/reverb_service_async_impl.cc:InsertStream"]}
{"id": "C41", "title": "Flush returning OK means all items are confirmed", "statement": "When TrajectoryWriter::Flush(0) returns OK every item created before has been confirmed by the server; likewise Writer::Flush with max_in_flight_items set.", "quantifier": "every history and every order of confirmations", "why_tests_cant": "All interleavings with the background stream worker.", "anchors": ["reverb/cc/trajectory_writer.cc:FlushLocked", "reverb/cc/writer.cc:Flush"]}
{"id": "C42", "title": "Streaming a sample over gRPC reassembles it exactly", "statement": "Splitting sampled items into SampleStreamResponse messages (sync and async service) and reassembling them in the client yields the same items with all their chunks, in order, whatever the chunk sizes.", "quantifier": "every list of samples, every chunk size assignment, every point at which writes complete", "why_tests_cant": "Splitting thresholds are size dependent (40MB/1MB).", "anchors": ["reverb/cc/reverb_service_impl.cc:SampleStreamInternal", "reverb/cc/reverb_service_async_impl.cc:ProcessSample", "reverb/cc/sampler.cc:FetchSamples"]}
{"id": "C43", "title": "A Sampler returns at most max_samples samples, each fetched sample once", "statement": "A Sampler with max_samples=M requests in total at most M samples at any time, returns at most M samples, never returns a sample twice, and after M returned samples reports OutOfRange.", "quantifier": "any number of workers, every interleaving, transient stream failures included", "why_tests_cant": "All interleavings of worker threads.", "anchors": ["reverb/cc/sampler.cc:RunWorker", "reverb/cc/sampler.cc:GetNextSample", "reverb/cc/sampler.cc:PopNextSample"]}
{"id": "C44", "title": "Timesteps emitted one by one equal the batched sample", "statement": "Calling GetNextTimestep until end_of_sequence gives, column-wise concatenated, exactly what GetNextSample would return; it gives exactly as many timesteps as the column length.", "quantifier": "every sample with equally long columns, every chunk split per column", "why_tests_cant": "All splits of columns into chunks.", "anchors": ["reverb/cc/sampler.cc:Sample"]}
{"id": "C45", "title": "Stream reactor never touches an in-flight message and finishes cleanly", "statement": "In the asynchronous service the response being written is never modified or freed, at most one write is outstanding, the reactor finishes exactly once and never with OK while responses remain; every stream is eventually finished after cancellation.", "quantifier": "every order of read/write/cancel/table callbacks", "why_tests_cant": "Callback interleavings.", "anchors": ["reverb/cc/reverb_server_table_reactor.h", "reverb/cc/reverb_service_async_impl.cc"]}
{"id": "C46", "title": "Rate limiter event history contains every completed event", "statement": "GetEventHistory(min_id) returns all completed events with id >= min_id up to the first still active one (limited only by the history buffer).", "quantifier": "every history of created/completed events, every min_id", "why_tests_cant": "Ring buffer boundaries.", "anchors": ["reverb/cc/rate_limiter.cc:GetEventHistory", "reverb/cc/rate_limiter.h"]}
{"id": "C47", "title": "Auto-tuned chunk length stays within bounds", "statement": "AutoTunedChunkerOptions always yields 1 <= max_chunk_length <= num_keep_alive_refs, whatever items and chunks it observes.", "quantifier": "every sequence of observed items and chunks, every score", "why_tests_cant": "Scores are data dependent.", "anchors": ["reverb/cc/chunker.cc:AutoTunedChunkerOptions"]}
{"id": "C48", "title": "Structured signatures flatten in the order data is flattened", "statement": "FlatSignatureFromStructuredValue lists the leaves of a nested signature in depth first order with dictionary entries in key order (the order tree.flatten uses on the data), one entry per leaf.", "quantifier": "every nested structure", "why_tests_cant": "All nested structures.", "anchors": ["reverb/cc/support/signature.cc"]}
{"id": "C49", "title": "Synchronous and asynchronous services interpret the sample timeout alike", "statement": "For every rate limiter timeout in a sample request both services wait equally long: negative or unset means for ever, t>=0 means t milliseconds.", "quantifier": "every timeout value", "why_tests_cant": "All values.", "anchors": ["reverb/cc/reverb_service_impl.cc:SampleStreamInternal", "reverb/cc/reverb_service_async_impl.cc:ProcessIncomingRequest", "reverb/cc/schema.proto"]}
{"id": "C50", "title": "An item's chunk list is the duplicate-free first-use order of its trajectory", "statement": "GetChunkKeys returns each chunk key referenced by the trajectory exactly once in order of first use; the table accepts an item iff its trajectory is non empty and its chunks match that list.", "quantifier": "every trajectory", "why_tests_cant": "All trajectories.", "anchors": ["reverb/cc/support/trajectory_util.cc:GetChunkKeys", "reverb/cc/table.cc:CheckItemValidity"]}
{"id": "C51", "title": "Cloning chunker options preserves them", "statement": "ChunkerOptions::Clone returns options with the same chunk length, keep-alive count and delta encoding setting, so that delta encoding requested by the user is applied by the TrajectoryWriter.", "quantifier": "every options value", "why_tests_cant": "All values.", "anchors": ["reverb/cc/chunker.cc:Clone"]}
{"id": "C52", "title": "No insert stream message can crash the server", "statement": "For every sequence of InsertStreamRequest messages the insert stream handler answers with a status; it never aborts the process.", "quantifier": "every message sequence, including malformed ones", "why_tests_cant": "All message sequences.", "anchors": ["reverb/cc/reverb_service_impl.cc:InsertStreamInternal", "reverb/cc/reverb_service_async_impl.cc:InsertStream"]}
{"id": "C53", "title": "Task executor runs every scheduled task exactly once", "statement": "Every callback scheduled on TaskExecutor before Close starts is executed exactly once, by a worker thread or by Close itself.", "quantifier": "any number of threads, every interleaving", "why_tests_cant": "All interleavings.", "anchors": ["reverb/cc/support/task_executor.cc", "reverb/cc/support/unbounded_queue.h"]}
{"id": "C54", "title": "A finished sample stream takes no more samples from the table", "statement": "In the asynchronous service, once a sample stream has been finished (error, failed write, cancellation) no further sampling request is enqueued for it, so no item's times_sampled is increased for a client that is gone; and never more samples are taken than the client asked for.", "quantifier": "every order of read/write/cancel/table callbacks", "why_tests_cant": "Callback interleavings.", "anchors": ["reverb/cc/reverb_service_async_impl.cc:MaybeStartSampling", "reverb/cc/reverb_service_async_impl.cc:OnWriteDone"]}
{"id": "C55", "title": "A sampler call never waits in vain", "statement": "Whenever a call of GetNextSample, GetNextTrajectory or GetNextTimestep is waiting for a sample, some worker is fetching samples or can start to, or the Sampler is being closed; a Sampler that has not returned max_samples samples does not get stuck.", "quantifier": "any number of workers and callers, every interleaving, also when samples are refused by the output signature", "why_tests_cant": "Interleavings, and the interplay of two counters after an error.", "anchors": ["reverb/cc/sampler.cc:RunWorker", "reverb/cc/sampler.cc:GetNextSample", "reverb/cc/sampler.cc:PopNextSample"]}
{"id": "C56", "title": "TrajectoryWriter calls never crash the process", "statement": "No sequence of calls of Append, AppendPartial, CreateItem, Flush, EndEpisode, ConfigureChunker and Close, with valid options and any arguments, runs into a failing check or an out of range access, in the caller's thread or in the stream worker.", "quantifier": "every history of calls and stream events, all arguments of CreateItem", "why_tests_cant": "All argument combinations and interleavings with the worker.", "anchors": ["reverb/cc/trajectory_writer.cc:CreateItem", "reverb/cc/trajectory_writer.cc:TrajectoryColumn::Validate", "reverb/cc/trajectory_writer.cc:SendNotAlreadySentChunks"]}
{"id": "C57", "title": "Flush waits for nothing but the server", "statement": "While a call of TrajectoryWriter::Flush or EndEpisode waits, it can return, or the stream worker can act, or the server still has to confirm an item that it got over the current stream; the worker never sleeps on data that is there.", "quantifier": "every history of calls, stream failures, retries and confirmations", "why_tests_cant": "Lost wake-ups and stuck states need all interleavings.", "anchors": ["reverb/cc/trajectory_writer.cc:FlushLocked", "reverb/cc/trajectory_writer.cc:RunStreamWorker", "reverb/cc/trajectory_writer.cc:AppendInternal"]}
{"id": "C58", "title": "Accepted items conform to the signature of their table", "statement": "If a TrajectoryWriter or Writer knows the signatures of the tables, then an item accepted by CreateItem is for a known table and the data of its columns (the referenced tensors, stacked unless squeezed) has the types and compatible shapes of that table's signature, column by column.", "quantifier": "all signatures, all columns and references, all histories", "why_tests_cant": "The signature check looks at one reference per column and at lengths of merged slices.", "anchors": ["reverb/cc/trajectory_writer.cc:ItemAndRefs::Validate", "reverb/cc/trajectory_writer.cc:FlatSignatureFromTrajectory", "reverb/cc/trajectory_writer.cc:CreateItem", "reverb/cc/writer.cc:CreateItem"]}
{"id": "C59", "title": "Writer calls never crash the process or misuse the stream", "statement": "No sequence of calls of Writer's Append, AppendSequence, CreateItem, Flush and Close, with valid options and any arguments, runs into a failing check, an out of range access, or a write on a stream whose writing side has been closed.", "quantifier": "every history of calls, with any stream failures and retries", "why_tests_cant": "All argument combinations and all failure points.", "anchors": ["reverb/cc/writer.cc:CreateItem", "reverb/cc/writer.cc:Finish", "reverb/cc/writer.cc:WriteWithRetries", "reverb/cc/writer.cc:StreamNextItem"]}
{"id": "C60", "title": "One chunk key, one content", "statement": "All chunks that a writer ever sends under one key carry the same data and the same range of steps, also when a chunk is sent again on a new stream: a server that keeps the first chunk it got under a key (as ChunkStore does) serves what the client meant.", "quantifier": "every history of calls, stream failures and retries", "why_tests_cant": "Retries after failures at every point.", "anchors": ["reverb/cc/writer.cc:Append", "reverb/cc/writer.cc:FinishChunk", "reverb/cc/trajectory_writer.cc", "reverb/cc/chunker.cc:FlushLocked", "reverb/cc/chunk_store.cc:Insert"]}
{"id": "C61", "title": "A table with a worker does what a table without one does", "statement": "Whatever the interleaving of the table worker with InsertOrAssignAsync, EnqueSampleRequest, MutateItems, Reset and Close, the contents, the counters, the history of insertions, samples, updates and deletions and the results are those of some order of the same calls executed one after the other by the table without a worker; the process does not crash and the worker does not stop before Close.", "quantifier": "every interleaving and every number of calls", "why_tests_cant": "Interleavings of worker batches with direct calls.", "anchors": ["reverb/cc/table.cc:TableWorkerLoop", "reverb/cc/table.cc:InsertOrAssignInternal", "reverb/cc/table.cc:SampleInternal", "reverb/cc/table.cc:MutateItems", "reverb/cc/table.cc:Reset"]}
{"id": "C62", "title": "InsertOrAssign on a table with a worker", "statement": "InsertOrAssign on a table with a worker returns OK only if the item is in effect (inserted, or its priority updated), and does return once it is.", "quantifier": "every interleaving with sampling requests, other inserts, MutateItems and Close", "why_tests_cant": "The call infers completion from the worker's state, which other requests influence.", "anchors": ["reverb/cc/table.cc:InsertOrAssign", "reverb/cc/table.cc:TableWorkerLoop"]}
{"id": "C63", "title": "A timeout does not take another call's wake-up", "statement": "Calls with deadlines that wait in the rate limiter do not change what C25 says about the others: if a call times out, no other thread stays blocked although the limiter would let its call proceed.", "quantifier": "any number of threads, every interleaving of signals and timeouts", "why_tests_cant": "Needs a signal and a timeout at the same moment.", "anchors": ["reverb/cc/rate_limiter.cc:AwaitCanInsert", "reverb/cc/rate_limiter.cc:AwaitAndFinalizeSample"]}
{"id": "C64", "title": "Threads waiting for the extension worker are not left behind", "statement": "A call that waits because the buffer of extension requests is full goes on once the extension worker has made room: when the extension worker sleeps on an empty buffer and no wake-up is under way, no call waits for room.", "quantifier": "any number of calling threads, every interleaving, every buffer size", "why_tests_cant": "Needs several threads waiting at once and a precise order of batches.", "anchors": ["reverb/cc/table.cc:ExtensionOperation", "reverb/cc/table.cc:ExtensionsWorkerLoop"]}
{"id": "C65", "title": "Asynchronous extensions see every operation once and in order", "statement": "With the extension worker, an asynchronous extension is told of every insertion, sample, update and deletion of the table exactly once, in the order in which the table performs them, with the item's state at that time; once the extension worker is idle, the contents the extension has seen are the table's.", "quantifier": "every interleaving of calls with the extension worker", "why_tests_cant": "Order and multiplicity over all interleavings of batches.", "anchors": ["reverb/cc/table.cc:ExtensionOperation", "reverb/cc/table.cc:ExtensionsWorkerLoop", "reverb/cc/table.cc:Reset"]}
{"id": "C66", "title": "History of the Python TrajectoryWriter mirrors the appended steps", "statement": "At any time history has, for every field of any step appended since the last end of the episode, a column with exactly one entry per step of the episode (including a step that is still being built), in order: the value given for this field in that step, or None if none was given; episode_steps is the number of finished steps. Indexing and slicing from the end give the values of the last steps, and a field cannot be given twice in one step.", "quantifier": "every sequence of append, end_episode and reads, with any nested structures that grow over time", "why_tests_cant": "The structure, the permutation of columns and the padding depend on the whole history of structures seen.", "anchors": ["reverb/trajectory_writer.py:TrajectoryWriter.append", "reverb/trajectory_writer.py:TrajectoryWriter.history", "reverb/trajectory_writer.py:_ColumnHistory"]}
{"id": "C67", "title": "configure(path) reaches the column of that path", "statement": "A configuration set with TrajectoryWriter.configure for a path is, when the first value of the field at this path reaches the C++ writer, the one configured for its column; it is never applied to the column of another path, and a field keeps its column for the whole life of the writer.", "quantifier": "every sequence of configure and append, in any order and with growing structures", "why_tests_cant": "Columns are numbered in the order in which structures are seen, which depends on the history.", "anchors": ["reverb/trajectory_writer.py:TrajectoryWriter.configure", "reverb/trajectory_writer.py:TrajectoryWriter._update_structure"]}
{"id": "C68", "title": "A restarted server continues from its last complete checkpoint, any number of times", "statement": "A server that is started with a checkpoint directory gets the tables as they were saved by the last Save that completed, whichever server process made it and however many processes and restores came before; if there is none it gets the tables of the fallback checkpoint, and else its own empty tables. It refuses to start if and only if a saved table has no counterpart among its tables. Restored tables are as safe as new ones.", "quantifier": "every sequence of server starts, calls, Saves cut off at any point with calls between the locks of the single tables, and crashes", "why_tests_cant": "The property is about unbounded chains of crash and restore.", "anchors": ["reverb/cc/reverb_service_async_impl.cc:Initialize", "reverb/cc/platform/tfrecord_checkpointer.cc:LoadLatest", "reverb/cc/platform/tfrecord_checkpointer.cc:LoadFallbackCheckpoint", "reverb/cc/platform/tfrecord_checkpointer.cc:Save"]}
{"id": "C69", "title": "Samplers hand out exactly the data that fits their signature", "statement": "A Sampler made with NewSampler hands out a trajectory, a batch of timesteps or a single timestep if and only if the number of its data columns and the type and shape of each of them fit the signature of the table (without the time dimension for timesteps); what it hands out also fits types and shapes that the caller gave. Data that a TrajectoryWriter or a Writer accepted for a table under some signature is never refused by a Sampler of the same table with the same signature.", "quantifier": "every signature with partly or wholly unknown shapes, all data, all runs of writers and server, the three ways to read a sample", "why_tests_cant": "Writer and Sampler check at different places, against different shapes, with and without the time dimension; agreement is about all signatures and all data.", "anchors": ["reverb/cc/client.cc:Client::NewSampler", "reverb/cc/client.cc:Client::GetDtypesAndShapesForSampler", "reverb/cc/sampler.cc:Sampler::ValidateAgainstOutputSpec", "reverb/cc/sampler.cc:Sampler::GetNextTrajectory", "reverb/cc/trajectory_writer.cc:TrajectoryWriter::ItemAndRefs::Validate"]}
{"id": "C70", "title": "The signatures that a client uses are those of its server", "statement": "All signatures that a client caches come from one answer of the server and are, table by table, those of that answer; once known they stay the same as long as the server does not change; after a successful ServerInfo they are those of the answer; writers and samplers use the signatures that the server has now.", "quantifier": "every sequence of calls of a client, failing and succeeding RPCs, restarted servers", "why_tests_cant": "Staleness depends on the sequence of calls and on the life of the server.", "anchors": ["reverb/cc/client.cc:Client::MaybeUpdateServerInfoCache", "reverb/cc/client.cc:Client::LockedUpdateServerInfoCache", "reverb/cc/client.cc:Client::ServerInfo"]}
{"id": "C71", "title": "Dataset iterators emit whole items in order and end only between items", "statement": "The iterators of TimestepDataset and ReverbDataset emit the timesteps of the sampled items one after the other, every item completely before the next one begins; with a positive sequence_length every item has exactly that many steps, and an item with another length is reported as an error. The end of the sequence is reported if and only if the rate limiter timed out, a timeout was configured and the last item is complete. An error about one item does not affect the next items. TrajectoryDataset and ReverbDataset with emit_timesteps=false emit one item per call, with sequence_length rows if set. A cancelled call emits nothing, and no callback stays registered after its call.", "quantifier": "every sequence of calls, samples of any size, timeouts, failures and cancellations at any point", "why_tests_cant": "The count of steps lives across calls and items; alignment after any number of items, errors and timeouts is about all histories.", "anchors": ["reverb/cc/ops/dataset.cc:ReverbDatasetOp", "reverb/cc/ops/timestep_dataset.cc:GetNextInternal", "reverb/cc/ops/trajectory_dataset.cc:GetNextInternal", "reverb/cc/sampler.cc:Sampler::GetNextTimestep"]}
{"id": "C72", "title": "A client in the process of the server gets the table it named, safely", "statement": "When a client asks for direct access to a table (NewSampler does so first), then it gets exactly the table registered under the name it gave if client and server are in the same process, and otherwise a failure that makes it use gRPC. Neither side uses memory after it has been freed or an address of another process, the server frees what it allocated exactly once and finishes the call exactly once, and the exchange always comes to its end.", "quantifier": "every interleaving of client, server and network, both server implementations, calls broken at any point, any client program, any tables", "why_tests_cant": "The outcome depends on interleavings of two threads and on the moment at which a call breaks.", "anchors": ["reverb/cc/client.cc:Client::GetLocalTablePtr", "reverb/cc/reverb_service_impl.cc:ReverbServiceImpl::InitializeConnection", "reverb/cc/reverb_service_async_impl.cc:ReverbServiceAsyncImpl::InitializeConnection"]}
{"id": "C73", "title": "End to end: every sampled trajectory is one that a writer created", "statement": "Whatever any number of TrajectoryWriters and Writers append and create, however their streams break, whatever else is done to the table (samples, changes of priorities, deletions, resets) and however the samples are cut into messages: every client gets exactly one trajectory per sample taken from the table for it, in this order, and the columns of each are the tensors that some writer appended for the item which it created with the key of the sample.", "quantifier": "any number of writers, streams, items, samples; all interleavings; all message sizes", "why_tests_cant": "Composition of chunking, chunk reuse, keep-alive sets, table state, splitting and reassembly over unbounded histories.", "anchors": ["reverb/cc/trajectory_writer.cc", "reverb/cc/reverb_service_async_impl.cc:InsertStream", "reverb/cc/reverb_service_async_impl.cc:SampleStream", "reverb/cc/table.cc", "reverb/cc/sampler.cc:AsSample"]}
{"id": "C74", "title": "Items reach the server in the order of their creation", "statement": "The items of a TrajectoryWriter reach the server in the order of the CreateItem calls, over all streams it opens; an item that has left the writer's queue has been sent, an item is sent again only directly after it was sent, never twice over the same stream, and only if a Write failed although its message arrived.", "quantifier": "every run of the writer with any number of broken streams", "why_tests_cant": "Order across reconnects depends on the point at which each stream breaks.", "anchors": ["reverb/cc/trajectory_writer.cc:RunStreamWorker", "reverb/cc/trajectory_writer.cc:SendItem", "reverb/cc/trajectory_writer.cc:GetNextPendingItem"]}
{"id": "C75", "title": "A queue between a writer and a client neither loses, repeats nor reorders", "statement": "With one TrajectoryWriter and one client on a Table.queue, the n-th trajectory that the client gets consists of the tensors of the n-th item that the writer created.", "quantifier": "every run of the writer, every history of inserts and samples, broken streams, all message sizes", "why_tests_cant": "End-to-end order and multiplicity over unbounded runs with failures.", "anchors": ["reverb/cc/trajectory_writer.cc:RunStreamWorker", "reverb/server.py:Table.queue", "reverb/cc/table.cc"]}
{"id": "C76", "title": "Client.insert stores the data once and puts one item in every table", "statement": "When Client.insert(data, priorities) returns, each table in priorities has received exactly one item with its priority, and the server has confirmed it; every item is sampled back as one step equal to data; the data is one chunk that all items share. If insert raises, no table has an item. insert never crashes the client.", "quantifier": "all data, priorities, signatures, limits on items in flight; all failures of writes and streams, at any point", "why_tests_cant": "The failures of the stream at every point of every call, together with retries, cannot be enumerated by tests.", "anchors": ["reverb/client.py:Client.insert", "reverb/cc/ops/client.cc:InsertOp", "reverb/cc/writer.cc:Close"]}
{"id": "C77", "title": "Client.sample yields the samples in order, split into the rows of their columns", "statement": "Client.sample(table, n) yields what the sampler gives, in order and at most n samples. With emit_timesteps a sample becomes one ReplaySample per row, with the information of the sample and row i of every column, or an exception is raised if the columns have no common length; these are the timesteps that Sampler::GetNextTimestep gives. Data inserted by insert is a list of one timestep equal to the data. Unpacking uses the current signature of the table.", "quantifier": "all samples: any number of columns, ranks, lengths; any sequence of answers of the sampler and the server", "why_tests_cant": "Unbounded numbers of columns and rows; agreement of two independent implementations of the split (Python and C++).", "anchors": ["reverb/client.py:Client.sample", "reverb/client.py:Client._get_signature_for_table", "reverb/cc/sampler.cc:GetNextTimestep"]}
{"id": "C78", "title": "A reference into a chunk yields exactly the rows it names or is refused", "statement": "Unpacking the slice (column, offset, length) of a chunk gives rows offset..offset+length-1 of that column as they were before encoding. A column number or window that is not inside the chunk gives InvalidArgument, never other data and never a crash of the client; a sampled item with such a reference is reported as an error, in the server's process and over the wire, and an item without one becomes a sample.", "quantifier": "every chunk (any number of columns, shapes, types, delta encoded or not), every column, offset and length, every item", "why_tests_cant": "All boundaries, including references written by other clients; a negative length inside the chunk aborts the process.", "anchors": ["reverb/cc/support/trajectory_util.cc:UnpackChunkColumn", "reverb/cc/support/trajectory_util.cc:UnpackChunkColumnAndSlice", "reverb/cc/sampler.cc:AsSample"]}
{"id": "C79", "title": "A periodic closure never runs after Stop, never overlaps itself and keeps its pace", "statement": "At most one Start succeeds. Calls of the function never overlap; the n-th call comes at least n periods after Start and consecutive calls are a period apart. Stop waits for nothing but the return of a call in progress; once it has returned, the function is not running and is never called again, whoever called Stop.", "quantifier": "every sequence of Start, Stop and destruction by any threads, every interleaving with the worker, every timing", "why_tests_cant": "Races between Stop and the worker, delays of the worker between reading the clock and the call.", "anchors": ["reverb/cc/support/periodic_closure.cc:Start", "reverb/cc/support/periodic_closure.cc:Stop", "reverb/cc/platform/default/thread.cc"]}
{"id": "C80", "title": "Stop shuts a server down once; Wait returns when it has been stopped and tells whether by SIGINT", "statement": "However many threads call Stop, the tables are closed and the gRPC server is shut down exactly once, before any of the calls returns. Wait returns only after that, with true exactly if a SIGINT was delivered to this server; a SIGINT sent to the process stops every server that is being waited for, without any lock being taken in the signal handler, and after Wait the process reacts to SIGINT as before.", "quantifier": "any number of servers in a process, any number of threads in Stop and Wait, signals at any time, every interleaving with the signal worker and the destructor", "why_tests_cant": "Signals and interleavings; several servers in one process share one callback.", "anchors": ["reverb/cc/platform/default/server.cc:Stop", "reverb/cc/platform/default/server.cc:Wait", "reverb/cc/platform/default/server.cc:signal_handler", "reverb/server.py:wait"]}
{"id": "C81", "title": "A priority update is applied, exactly once, before the call returns", "statement": "TFClient.update_priorities, which sends MutatePriorities again whenever it ends with Unavailable or DeadlineExceeded, returns only the answer the server gave to this request, after the server has applied it to the named table; the request is applied exactly once and never after the call has returned, so an update that was confirmed is replaced only by a later call. Keys and priorities must be tensors of rank 1 and the same shape and are paired by position.", "quantifier": "any number of calls of any number of clients, with and without the loop, all tables and requests, every order of sending, handling, losing and answering requests, failures of calls and restarts of the server at any time", "why_tests_cant": "Depends on when connections fail relative to the server handling a request; a test with a healthy server sends every request once.", "anchors": ["reverb/cc/client.cc:MutatePriorities", "reverb/cc/ops/client.cc:UpdatePrioritiesOp", "reverb/cc/reverb_service_async_impl.cc:MutatePriorities", "reverb/tf_client.py:update_priorities"]}
{"id": "C82", "title": "Checkpoints requested at the same time do not destroy each other", "statement": "When several checkpoints are requested at the same time (the Checkpoint call takes no lock and deletes all but the newest keep_latest directories), the state of a call that has returned with success, or of a later one, stays available: at every moment from then on, crashes of the server included, the newest directory with a DONE file is a complete checkpoint of that call or of one that began after it, and a restarted server loads it. A call whose checkpoint is complete returns with success if the file system works.", "quantifier": "any number of Saves with any keep_latest, every interleaving of their file operations (including partial writes and the file by file deletion of directories), errors of the file system and crashes at any time", "why_tests_cant": "The outcome depends on which Save lists the directory while another one is between creating its directory and writing DONE; a unit test runs one Save after the other.", "anchors": ["reverb/cc/platform/tfrecord_checkpointer.cc:Save", "reverb/cc/reverb_service_impl.cc:Checkpoint", "reverb/cc/reverb_service_async_impl.cc:Checkpoint", "reverb/client.py:checkpoint"]}
{"id": "C83", "title": "Data sampled after restarts of the server is the data that was written before them", "statement": "A server is stopped or dies and is started again with the same checkpoint directory any number of times. Whatever a client then samples from a table, restored or not, is what a writer, of this or of an earlier server, put in under the key of the sample: the columns of the item the TrajectoryWriter created, or the last n steps appended to the Writer. Every item that was in a table when the last complete checkpoint was taken is in the table after the start.", "quantifier": "any number of writers of both kinds, tables, servers one after the other, calls, complete and interrupted checkpoints and crashes at any time, any division of the samples into messages", "why_tests_cant": "Combines writers, stream, table, checkpoint, restart, sampling and unpacking over several lives of the server; each test covers one of these steps with small data.", "anchors": ["reverb/cc/platform/tfrecord_checkpointer.cc:Save", "reverb/cc/platform/tfrecord_checkpointer.cc:Load", "reverb/cc/reverb_service_async_impl.cc:Initialize", "reverb/cc/table.cc:InsertCheckpointItem", "reverb/cc/trajectory_writer.cc:CreateItem", "reverb/cc/writer.cc:CreateItem", "reverb/cc/sampler.cc:AsTrajectory"]}
{"id": "C84", "title": "Starting from a checkpoint is all or nothing, also for damaged files and files in the old format", "statement": "When a server starts from a checkpoint directory, every table of that checkpoint has exactly the items it had, each with its priority, number of samples and trajectory and with all the data its trajectory refers to, and the other tables are as configured. If the files were damaged since (changed bytes, an unreadable or truncated file, lost records), the server does not start rather than start with a part of the data. Checkpoints of older versions (tensors in deprecated_data, items given by chunk keys, offset and length) give items whose columns read exactly that range of rows. A file with both formats is refused.", "quantifier": "any contents of both record files, any sequence of readable, unparsable and failing records, any mix of both formats, any number of tables, items and chunks", "why_tests_cant": "Tests load a directory that was just saved; damaged, truncated and old files are not tested, and the possible damages cannot be enumerated.", "anchors": ["reverb/cc/platform/tfrecord_checkpointer.cc:Load", "reverb/cc/chunk_store.cc:Insert", "reverb/cc/support/trajectory_util.cc:FlatTimestepTrajectory", "reverb/cc/table.cc:InsertCheckpointItem", "reverb/cc/reverb_service_async_impl.cc:Initialize"]}
{"id": "C85", "title": "What is appended in Python is what is sampled", "statement": "Whatever a user does with Python TrajectoryWriters (append, also with several calls for one step, with new fields, or failing; end_episode; flush; create_item with columns taken from history now or earlier, also slices of slices), every sample of an item that create_item made holds, in every column, exactly the values that the user appended at these paths in these steps, stacked for a slice and as they are for an index. Values of append calls that failed are in no sample, also if the C++ writer had stored them.", "quantifier": "any structures and values, any interleaving of the calls with the worker and the streams of the writer, any chunk lengths, any number of writers and tables (with or without worker), any sampling", "why_tests_cant": "Tests append a few steps and look at mocked calls or at one sample; failed and partial steps, columns kept over flushes and every chunking cannot be enumerated.", "anchors": ["reverb/trajectory_writer.py:TrajectoryWriter", "reverb/trajectory_writer.py:_ColumnHistory", "reverb/trajectory_writer.py:TrajectoryColumn", "reverb/pybind.cc:TrajectoryWriter", "reverb/cc/trajectory_writer.cc:AppendInternal", "reverb/cc/trajectory_writer.cc:CreateItem"]}
{"id": "C86", "title": "What a table hands out reaches the callers of Samplers once and, with one worker, in order", "statement": "Every sample that a table hands out for Samplers reaches a caller at most once, whichever Sampler, worker and call it passes through; so an item inserted once is delivered at most max_times_sampled times in total, and an item of Table.queue at most once. As long as nothing fails (no stream breaks, no request times out while a caller waits, no sample is refused, the Sampler is not closed), no sample is lost: each one was returned or is still on its way, and when max_samples have been returned the table has handed out exactly these. With one worker and one calling thread the samples arrive in the order in which the table handed them out, without gaps; for Table.queue this is the order of insertion.", "quantifier": "any number of Samplers, workers (over gRPC or in the process of the server), requests, streams and concurrent calls, any interleaving, any histories of the table", "why_tests_cant": "Whether a sample gets lost or overtakes another one depends on the interleaving of the workers, streams, the queue and the callers; tests see a few schedules of one Sampler with a mocked stream.", "anchors": ["reverb/cc/sampler.cc:FetchSamples", "reverb/cc/sampler.cc:RunWorker", "reverb/cc/sampler.cc:PopNextSample", "reverb/cc/sampler.cc:GetNextTimestep", "reverb/cc/support/queue.h", "reverb/cc/reverb_service_impl.cc:SampleStreamInternal", "reverb/cc/table.cc:SampleFlexibleBatch"]}
{"id": "C87", "title": "Nested data comes back in the structure of the table's signature", "statement": "Data of any nested structure of lists, tuples, named tuples and dictionaries that has the structure of the signature of the table it is inserted into comes back from Client.sample with every leaf at its place: unpacking the flattened data gives the data, for insert as one timestep and for trajectories column by column, whatever order dictionaries list their keys in. A sample is refused (ValueError) exactly if its number of columns is not the number of leaves of the signature. The constructor of Table refuses exactly the nonempty signatures with a leaf that is not a TensorSpec, and what it accepts is flattened by the server to the types and shapes of the flattened signature. The structure of the data itself is not checked, and an empty structure counts as no signature.", "quantifier": "all structures of any depth and width, all orders of dictionary keys, all numbers of columns and rows", "why_tests_cant": "Nesting depth and key orders are unbounded; tests use a handful of flat signatures, and the order of keys inside a proto map is not under their control.", "anchors": ["reverb/server.py:Table.__init__", "reverb/reverb_types.py:TableInfo.from_serialized_proto", "reverb/client.py:Client.sample", "reverb/client.py:Writer.append", "reverb/cc/support/signature.cc:FlatSignatureFromStructuredValue"]}
{"id": "C88", "title": "Datasets made from the signature of a table emit elements in its structure", "statement": "ReplayDataset, TimestepDataset and TrajectoryDataset made with from_table_signature exist exactly if the arguments are in range, the server names the table with a nonempty signature and, when sequences are emitted, every leaf has a known rank; then the ops and the options of the Sampler accept the arguments. element_spec has at every place of the signature (with tuples for lists) the type and shape of the signature's leaf, with sequence_length in front if sequences are emitted. If the server still gives that signature when the iterator is made, it is what samples are checked against, and every element emitted has the structure of the signature with, at each place, a tensor (or rows of a tensor) of the type and shape of the leaf. Leaves come to the places they had when they were written. If the server cannot be reached within the deadline when the iterator is made, nothing is checked.", "quantifier": "all signatures (any depth and width), all arguments, all numbers of unpacked tensors, all states of the iterator", "why_tests_cant": "Structures and argument combinations are unbounded; the checks are spread over Python, the op, the Sampler and the client's cache, and tests look at each with a few flat signatures.", "anchors": ["reverb/dataset.py:ReplayDataset.from_table_signature", "reverb/timestep_dataset.py:TimestepDataset.from_table_signature", "reverb/trajectory_dataset.py:TrajectoryDataset.from_table_signature", "reverb/cc/ops/dataset.cc:ReverbDatasetOp", "reverb/cc/sampler.cc:Sampler::Options::Validate"]}
{"id": "C89", "title": "End to end in Python: a TrajectoryDataset emits the trajectories that create_item was called with", "statement": "Any number of Python TrajectoryWriters that hold the server's signatures fill a table with items of the structure of its signature (made of indices and slices without a step, keys that do not collide). A TrajectoryDataset made with from_table_signature then emits, for every sample of the table that its Sampler returns, one element: the structure given to create_item (with tuples for lists), holding at each place the values that the user asked for; nothing is refused. An item inserted once is in at most max_times_sampled elements, however many Samplers and workers there are. From a Table.queue with one worker, and if nothing fails, the elements are the trajectories in the order of their insertion, none twice and none left out.", "quantifier": "all histories of all writers and the table, all divisions of samples into messages, all numbers of Samplers and workers, all structures", "why_tests_cant": "The claim spans the Python writer, chunking, the stream, the table, the Sampler and the dataset; integration tests run a few fixed histories.", "anchors": ["reverb/trajectory_writer.py:TrajectoryWriter.create_item", "reverb/trajectory_dataset.py:TrajectoryDataset.from_table_signature", "reverb/cc/trajectory_writer.cc:TrajectoryWriter::CreateItem", "reverb/cc/table.cc:Table::SampleFlexibleBatch", "reverb/cc/sampler.cc:Sampler::GetNextTrajectory", "reverb/cc/ops/trajectory_dataset.cc:GetNextInternal"]}
{"id": "C90", "title": "TaskWorker runs every accepted task once, Close leaves nothing behind, and the deadlock checker warns exactly when all threads are stuck", "statement": "In a TaskWorker with any number of threads: tasks are taken in the order of the calls of Schedule; the callback of an accepted task is called at most once, one of a refused task never; a task is refused iff Close has begun. A callback called by a thread gets an Ok status, one called by Close a cancelled status and enough_queue_slots = false; otherwise enough_queue_slots and the result of Schedule tell whether at most max_queue_size_to_warn tasks wait. When Close returns the callbacks of all accepted tasks have returned and nothing runs afterwards; with at least one thread, once Close has begun the threads have only a bounded number of steps left before it returns (if callbacks return). The thread statistics count the tasks taken and finished. With at least one thread a check of the deadlock checker that warns saw every thread busy with a task for at least the time that it names (at least a minute); one that does not saw a thread that was idle or had started a task less than a minute before.", "quantifier": "all numbers of threads, limits and tasks, all interleavings of calls of Schedule, worker threads, Close and checker", "why_tests_cant": "The races are between the checker, the workers and Close; tests cannot enumerate them and the source says that the deadlock checker has no unit tests.", "anchors": ["reverb/cc/task_worker.h:TaskWorker", "reverb/cc/thread_stats.cc:LastThreadId", "reverb/cc/support/periodic_closure.cc:PeriodicClosure", "reverb/cc/support/unbounded_queue.h:UnboundedQueue"]}
{"id": "C91", "title": "A TrajectoryWriter sends a chunk once per stream, and the server keeps exactly what is still needed", "statement": "If items are created from references that their columns still hold (the last num_keep_alive_refs), then over one stream no chunk is sent twice, however items, appends, flushes and configuration changes interleave with the stream worker. When an item is sent, the chunks that the server is told to keep are exactly those sent so far that hold a step which some column still keeps or some item behind it in the queue refers to; after the item the server holds these chunks and no others.", "quantifier": "all interleavings of the user, the stream worker, the reader and the server's responses; all chunk lengths and numbers of kept references", "why_tests_cant": "Whether a chunk is needed later depends on the race between CreateItem and the stream worker; tests look at fixed sequences.", "anchors": ["reverb/cc/trajectory_writer.cc:TrajectoryWriter::GetKeepKeys", "reverb/cc/trajectory_writer.cc:TrajectoryWriter::RunStreamWorker", "reverb/cc/trajectory_writer.cc:SendNotAlreadySentChunks", "reverb/cc/chunker.cc:Chunker::GetKeepKeys"]}
{"id": "C92", "title": "Compressed tensors come back unchanged, and no data makes decompression write outside of the tensor", "statement": "Whatever pieces the Snappy library delivers its output in, and whether it writes into the sink's buffer or its own, CompressTensorAsProto stores exactly the compressed bytes (with either kind of standard library, however often the string moves) and DecompressTensorFromProto gives the tensor back. For any proto at all, also a corrupt one, decompression fails no assertion, writes no byte outside of the tensor it allocated, and the tensor begins with the bytes that were delivered.", "quantifier": "all sequences of GetAppendBuffer and Append calls that follow the protocol of the sinks; all contents, sizes, addresses and allocator answers; all protos", "why_tests_cant": "The aliasing of the sink's buffer with the appended data depends on how the library splits its output; tests see a few inputs with one version of the library.", "anchors": ["reverb/cc/platform/default/snappy.cc:StringSink", "reverb/cc/platform/default/snappy.cc:CheckedByteArraySink", "reverb/cc/tensor_compression.cc:CompressTensorAsProto", "reverb/cc/tensor_compression.cc:DecompressTensorFromProto"]}
{"id": "C93", "title": "A NumPy array given to Reverb comes back as it was, whatever its memory layout", "statement": "An array of numbers that is converted to a tensor and back has the same shape and type and at every index the same element, whether it is contiguous, transposed, sliced, reversed or broadcast, and in either byte order; strings come back as bytes, a str as its UTF-8 encoding. A tensor given to Python and back is unchanged. Arrays of the other types, and strings that are neither bytes nor an encodable str, are refused; nothing crashes.", "quantifier": "all shapes including empty ones, all strides, all memory contents, all supported and unsupported types", "why_tests_cant": "Tests convert a few arrays made by np.array; views with arbitrary strides and all combinations of shapes cannot be enumerated.", "anchors": ["reverb/pybind.cc:NdArrayToTensor", "reverb/pybind.cc:TensorToNdArray", "reverb/pybind.cc:GetTensorDtypeFromPyArray", "reverb/pybind.cc:GetPyDescrFromDataType", "reverb/pybind.cc:PyBytesArrayMap"]}
{"id": "C94", "title": "append_sequence is the same as appending the slices one by one", "statement": "A call of append_sequence is equivalent to splitting the sequence along its first dimension and calling append once for each slice: the writer ends in the same state and has sent the same messages, and the call returns OK if all appends do and otherwise the status of the first that fails, after which no further slice is appended. It is refused, without any effect, exactly if the sequence is empty, has a scalar or has tensors with different first dimensions. If nothing fails and Flush has not been called, an item of the n last steps made after append_sequence of n steps is sampled back as the tensors that were given.", "quantifier": "all sequences, all states of the writer, all interleavings with the confirmation worker and all failures of the stream", "why_tests_cant": "Tests compare a few sequences on a healthy stream; the equivalence concerns every failure point and every interleaving.", "anchors": ["reverb/cc/writer.cc:Writer::AppendSequence", "reverb/cc/writer.cc:Writer::Append", "reverb/client.py:Writer.append_sequence"]}
{"id": "C95", "title": "TFClient.sample returns the item that it takes from the table", "statement": "A call of TFClient.sample takes one item from the table and returns its information and its data, or fails with an error that tells why. It succeeds exactly if the columns of the item have equally many rows, the types are the declared ones and the data fits the signature (if it is known); then it returns the first row of every column. Data that was inserted with insert comes back as it was given.", "quantifier": "all items of any number of columns, pieces and rows, all declared types and signatures, all runs of the writers and all interleavings of the Sampler behind the op", "why_tests_cant": "Tests sample one item with one step from a mock; which rows come back for longer or unevenly divided items, and how many items a call takes from the table when streams break, needs all shapes and schedules.", "anchors": ["reverb/cc/ops/client.cc:SampleOp", "reverb/tf_client.py:TFClient.sample", "reverb/cc/sampler.cc:Sampler::GetNextTimestep", "reverb/cc/client.cc:NewSampler"]}
{"id": "C96", "title": "can_sample(n) and can_insert(n) tell whether the next n calls go through", "statement": "Table.can_sample(n) is true exactly if the next n samples, made one after the other or as one batch with no other call in between, are all returned without waiting. Table.can_insert(n) is true exactly if the next n insertions of new items succeed without waiting. (n >= 1; smaller n end the process, as documented.)", "quantifier": "all tables with any configuration in any state reached by any calls, all n, all random draws and all items", "why_tests_cant": "The answer is computed from counters without doing the calls; whether it agrees with what n calls would do depends on removals by max_times_sampled and by evictions on the way, in every reachable state.", "anchors": ["reverb/cc/table.cc:Table::CanSample", "reverb/cc/table.cc:Table::CanInsert", "reverb/cc/rate_limiter.cc:RateLimiter::CanSample", "reverb/cc/rate_limiter.cc:RateLimiter::CanInsert", "reverb/server.py:Table.can_sample", "reverb/server.py:Table.can_insert"]}
{"id": "C97", "title": "The tables of a process are independent of each other", "statement": "Every table of a process behaves as if it were the only one: the results of the calls on it and its contents are those of a new table with its configuration on which the same calls are made, whatever other tables are created, used and destroyed in between. An extension sees the operations of its table, all of them, and of no other live table. A constructor that is given an object already in use by another table does not go through.", "quantifier": "all programs that create selectors, limiters, extensions and tables, call tables in any order and destroy them", "why_tests_cant": "The selectors, limiters and extensions are shared objects that the user passes in; interference shows up only for particular combinations of sharing, order of calls and destruction.", "anchors": ["reverb/cc/table.cc:Table::Table", "reverb/cc/table.cc:Table::~Table", "reverb/cc/rate_limiter.cc:RateLimiter::RegisterTable", "reverb/cc/rate_limiter.cc:RateLimiter::UnregisterTable", "reverb/cc/table_extensions/base.cc:TableExtensionBase::RegisterTable", "reverb/pybind.cc:PYBIND11_MODULE", "reverb/server.py:Table.__init__"]}
{"id": "C98", "title": "Timeouts and failures reach the Python caller as what they are", "statement": "TrajectoryWriter.flush, TrajectoryWriter.end_episode and Client.server_info raise DeadlineExceededError exactly if a timeout was given and the call did not complete within it, return exactly if it completed without failure, block for ever only if no timeout was given, and otherwise raise the exception of the failure. A status keeps its code and message on its way from the server to the client. An iterator with a rate limiter timeout ends exactly if the table reported that timeout.", "quantifier": "all timeouts, all points in time at which the call could complete, all statuses with all messages", "why_tests_cant": "The kind of failure is recognised by the text of the message, through three layers; tests check a few statuses, not every message that may occur.", "anchors": ["reverb/pybind.cc:MaybeRaiseFromStatus", "reverb/trajectory_writer.py:TrajectoryWriter.flush", "reverb/trajectory_writer.py:TrajectoryWriter.end_episode", "reverb/client.py:Client.server_info", "reverb/cc/support/grpc_util.h:FromGrpcStatus", "reverb/cc/support/grpc_util.h:ToGrpcStatus", "reverb/cc/errors.cc:IsRateLimiterTimeout", "reverb/cc/trajectory_writer.cc:TrajectoryWriter::FlushLocked", "reverb/cc/ops/trajectory_dataset.cc:GetNextInternal"]}
{"id": "C99", "title": "A server serves the tables that it was given", "statement": "A server has exactly the tables given to Server(...), each with the extensions it was given. A request is executed on the table that it names and has no effect on others; its reply is that of a table that gets the requests naming it and no others. A request that names another table is refused with NOT_FOUND. Table.info of the objects given to the server and server_info() agree. This also holds if the server starts from a checkpoint, where a table of the checkpoint starts with the data saved, and if Table objects are used for a server again.", "quantifier": "all programs that make tables and servers, stop servers and start them from any checkpoint, with or without success; all requests to all servers in any order", "why_tests_cant": "Loading replaces the table objects behind the ones that Python holds; tests look at one server with one set of tables that is started once.", "anchors": ["reverb/server.py:Server.__init__", "reverb/server.py:Table.info", "reverb/cc/platform/default/server.cc:ServerImpl::Initialize", "reverb/cc/reverb_service_impl.cc:ReverbServiceImpl::Initialize", "reverb/cc/reverb_service_impl.cc:ReverbServiceImpl::TableByName", "reverb/cc/platform/tfrecord_checkpointer.cc:TFRecordCheckpointer::Load", "reverb/cc/table.cc:Table::UnsafeClearExtensions"]}
{"id": "C100", "title": "A with block of a TrajectoryWriter leaves no item unconfirmed unless an error says so", "statement": "If the with statement of a TrajectoryWriter ends normally, or with an exception of its body that is not a ReverbError, then the server has confirmed every item that was created. It ends with another exception than that of its body only if flush failed. If the body raises a ReverbError, or the writer is deleted without a flush, then from the deletion on the server confirms only items that it got before, and at most one more.", "quantifier": "all programs in the body, all exceptions, all interleavings with the stream worker, the server and broken streams; everything that happens after the deletion", "why_tests_cant": "Whether an item is lost depends on how far the worker and the server got when the block is left; tests leave the block once, with a fast server.", "anchors": ["reverb/trajectory_writer.py:TrajectoryWriter.__exit__", "reverb/trajectory_writer.py:TrajectoryWriter.__del__", "reverb/trajectory_writer.py:TrajectoryWriter.close", "reverb/cc/trajectory_writer.cc:TrajectoryWriter::~TrajectoryWriter", "reverb/cc/trajectory_writer.cc:TrajectoryWriter::Close", "reverb/errors.py:ReverbError"]}
{"id": "C101", "title": "A Writer that was closed has sent its items and sends no more", "statement": "Once close() of a Writer has returned, be it called by the user, at the end of a with block or at deletion, every item for which create_item returned has been sent over the stream. Once close() or close(retry_on_unavailable=False) has returned, nothing is sent any more, and every further call raises an exception and changes nothing.", "quantifier": "all programs with a Writer, all parameters, all interleavings with the worker that reads confirmations, any number of broken streams and retries", "why_tests_cant": "Items pending at the time of the close are sent by a loop that reconnects; tests close writers whose server answers.", "anchors": ["reverb/client.py:Writer.close", "reverb/client.py:Writer.__exit__", "reverb/client.py:Writer.__del__", "reverb/cc/writer.cc:Writer::Close", "reverb/cc/writer.cc:Writer::Finish", "reverb/cc/writer.cc:Writer::WriteWithRetries", "reverb/cc/writer.cc:Writer::~Writer"]}
{"id": "C102", "title": "PickUnusedPortOrDie finds a free port, and another one each time", "statement": "PickUnusedPortOrDie returns a port between 1 and 65535 that could be bound by a TCP and by a UDP socket one right after the other. The calls of a process return different ports. A call ends the process only if a thousand trials have failed, in particular not if one of the ports tried first is free for both all the time.", "quantifier": "all answers of the operating system at all times, all process ids and random numbers, any number of calls", "why_tests_cant": "The test makes two calls on an idle machine, where the first trial succeeds; the other trials are never reached.", "anchors": ["reverb/cc/platform/default/net.cc:PickUnusedPortOrDie", "reverb/cc/platform/default/net.cc:IsPortAvailable"]}
{"id": "C103", "title": "import reverb accepts exactly the TensorFlow versions that it requires", "statement": "import reverb passes the check of TensorFlow's version if and only if that is 2.3.0 or a later one, where the numbers of a release are compared as numbers, and raises an ImportError otherwise.", "quantifier": "all version texts, with numbers of any size and any suffix", "why_tests_cant": "A test sees the one TensorFlow that is installed.", "anchors": ["reverb/platform/default/ensure_tf_install.py:ensure_tf_version", "reverb/__init__.py"]}
