# Formal model of deepmind/reverb (pinned source in /repo)

The development lives in `rocq/theories`, Coq 8.16.1, libraries: Coq stdlib and
std++ (`gmap`, `list`).  No axiom is introduced.

## Conventions

* One Coq file (or pair `X.v` model, `XProofs.v` proofs) per component.  Every
  definition of a model file carries a comment with the file and lines of
  /repo it models and with the simplifications made.
* A C++ method becomes a total function from state and arguments to an
  outcome.  `CHECK` failures are the separate outcome `Crash`; blocking calls
  which cannot proceed are the separate outcome `Blocked`; error returns carry
  the (possibly modified) state.
* Mutex protected sections are atomic steps.  Where the code gives up the lock
  in the middle (condition variable waits, extension buffer full) the section
  is split into several steps of a transition system.
* Random draws, clock readings, hash map enumeration orders, float rounding
  and the `pow` function are explicit arguments; theorems quantify over them.
* Doubles are exact rationals (plus NaN where the code distinguishes it),
  except in C14 where an arbitrary rounding function is a parameter.
* Where the faithful model violates the English property a theorem
  `..._refuted` gives the witness and a `..._partial` theorem (or the same
  property with the precise side condition) states what does hold.

## Plan per property

| id | modelled code | how it is proved |
|----|---------------|------------------|
| C01 | table.cc sync core (InsertOrAssign, SampleFlexibleBatch, MutateItems, Reset, DeleteItem, UpdateItem, InsertCheckpointItem) | invariant by induction on histories; refuted for histories with rejected priorities |
| C02 | same + rate_limiter.cc + selectors | same invariant; `run` never yields `Crash` |
| C03 | rate_limiter.cc + table core | history variables counted from the trace, induction |
| C04 | rate_limiters.py constructors + CanInsert/CanSample | arithmetic over Q for all reachable counters |
| C05 | table core | per-item history counter, induction |
| C06, C07, C21, C23, C24 | table core | frame theorems for every state satisfying the invariant |
| C08 | table core, selector key sets | invariant |
| C09, C10 | fifo.cc, lifo.cc | refinement to an insertion-ordered list |
| C11 | heap.cc, intrusive_heap.h (array, sift up/down, back indices) | heap-order invariant, extremality of the root |
| C12 | uniform.cc | array/index map mutually inverse |
| C13, C14 | prioritized.cc (sum tree) | subtree-sum invariant; descent = position in a prefix sum; rounding version |
| C15, C16, C20 | table core with episode map and extension events | invariant / replay of the event log |
| C17, C18 | table Checkpoint/InsertCheckpointItem, tfrecord_checkpointer Save/Load | round trip theorems |
| C19 | tfrecord_checkpointer.cc Save/LoadLatest on an abstract directory | invariant at every crash point |
| C22 | Reset | bisimulation with the initial table |
| C25 | rate limiter condition variables as a transition system over threads | inductive invariant |
| C26 | table core error paths | refutation + partial |
| C27 | table core split at ExtensionOperation's wait | refutation + partial |
| C28, C29 | table worker loop, pending queues | invariants of the transition system |
| C30, C34 | table core at the Python queue/stack configuration | refinement to an abstract queue/stack |
| C31 | tensor_compression.cc DeltaEncode | modular arithmetic for every width |
| C32, C33 | support/queue.h | refinement to a list; PopBatch refuted |
| C35 | chunk_store.cc | transition system with weak references; cleanup race refuted |
| C36 | trajectory_util.cc | window arithmetic on lists |
| C37 | writer.cc | invariant over appended steps |
| C38 | chunker.cc | invariant over appends/flushes |
| C39 | trajectory_writer.cc MergeAdjacent/CreateItem | round trip; refuted for gaps |
| C40, C41, C52 | trajectory_writer.cc, writer.cc, insert streams of both services | protocol invariant |
| C42 | response splitting and reassembly | round trip |
| C43 | sampler.cc workers | transition-system invariant |
| C44 | sampler.cc Sample | list transposition |
| C45 | reverb_server_table_reactor.h | transition-system invariant |
| C46 | rate_limiter.cc StatsManager | refuted off-by-one, partial |
| C47 | chunker.cc auto tuning | invariant |
| C48 | support/signature.cc | induction on structures |
| C49 | timeout conversion of both services | refuted at 0, partial |
| C50 | GetChunkKeys, CheckItemValidity | list induction |
| C51 | ChunkerOptions::Clone | refuted |
| C53 | task_executor.cc | transition-system invariant |
| C54 | reverb_service_async_impl.cc sampling reactor | refuted (a finished stream asks for one more sample), partial |
| C55 | sampler.cc waits of callers and workers | invariant: who waits has somebody to wait for; refuted after a refused sample |
| C56, C57, C58 | trajectory_writer.cc as a transition system (user, stream worker, reader) | invariants over all runs; refutations for an empty column, a broken stream, a failed Append |
| C59, C60 | writer.cc cut into actions at every stream operation; trajectory_writer.cc for C60 | invariants over all runs; refutations after DataLoss and for failed Appends |
| C61, C62 | table.cc TableWorkerLoop and the calls that talk to it | every run is a run of the synchronous table (simulation), refutations |
| C63 | rate_limiter.cc waits with timeouts | refuted (a timeout takes a signal), partial with C25 |
| C64, C65 | table.cc ExtensionOperation and ExtensionsWorkerLoop | invariant on waiting threads; simulation by the synchronous table; refutations |
| C66, C67 | reverb/trajectory_writer.py (append, history, configure, end_episode) | invariant over all runs relating columns to paths; refutations |
| C68 | service Initialize with LoadLatest and LoadFallbackCheckpoint, as a transition system of starts, calls, Saves and crashes | invariant over all runs, on top of C17 and C19 |
| C69 | the signature side of client.cc (cache, NewSampler) and Sampler::ValidateAgainstOutputSpec | exact characterisation of what is handed out; composition with C37 and C39 for items of the writers |
| C70 | the server info cache of client.cc as a state machine over its calls | invariant over all runs; witness for stale signatures |
| C71 | the iterators of the three TensorFlow datasets over an arbitrary stream of samples, timeouts and cancellations | invariant over all runs tying the step counter to the active sample; witnesses |
| C72 | GetLocalTablePtr and both InitializeConnection implementations as a transition system with two message channels | invariants; all states of an unbroken call enumerated, decreasing measure; witnesses |
| C73 | composition of TrajectoryWriter and Writer, insert stream, table, sample stream and Sampler: the table's insertions are messages on the wires of reachable writer states | every item in the table was inserted (invariant over the event log), then C39 (TrajectoryWriter), C37 (Writer) and C42; the table with worker by C61 and C28 |
| C74 | the messages of all streams of a TrajectoryWriter in order | invariant: what was sent is a prefix of what was created, up to repetitions of the item at the front of the queue |
| C75 | C73 with Table.queue and one writer | from C73, C74 and C30; witnesses for broken streams |
| C76 | Client.insert as a driver of the Writer of Writer.v (PyClient.v) | invariant over runs of the writer in which the calls are those of insert; C37 and C41 of the writer; witnesses |
| C77 | Client.sample: split into timesteps, generator loop, cache of signatures | induction on columns and rows; C44 and C76; witness for the cache |
| C78 | references into chunks: rows, refusals, crash | case analysis on the numbers; C31 for the encoding; induction over the slices of an item |
| C79 | PeriodicClosure: worker, Start, Stop | state machine with clock; invariant over logs, bound on the steps after Stop |
| C80 | ServerImpl: Stop, Wait, SIGINT, destructor; several servers | state machine; invariant of each server; progress by construction of a run; witnesses |
| C81 | MutatePriorities as a remote call: attempts, losses, late handling, retries, restarts | state machine with a log; invariant by induction on the run; idempotence of Table.mutate_items from C21; witnesses |
| C82 | Saves as threads: create, write, DONE, list, delete file by file; errors and crashes between any two operations | invariant over all interleavings (newest complete directory only moves forward); witnesses for what is false |
| C83 | the system of C68 with the writers and clients of C73 | every table, snapshot and checkpoint of a run only holds items that came from a writer (induction on the run), then C42 and C39/C37 for the samples |
| C84 | Load on any pair of record files: records that parse or not, an end of file or a read error, both formats of chunks and items | induction over the records; a successful load is the load of a readable checkpoint in the present format (refinement to Checkpoint.v); C36 for the ranges of old items; witnesses for cut and missing files |
| C85 | the Python TrajectoryWriter on top of the C++ one: calls, the columns that the user holds, the worker in between | invariant that relates the rows of every Python column to cells of the C++ chunkers (the step counter tells which); history (C66) gives the values, C39/C73 the sample; witness for strided slices; by induction over the calls, which columns are single values |
| C86 | Samplers with their streams between a table and the callers; ghost history of what the table handed out | balance of samples as a multiset (invariant on top of C43/C55), as a list for one worker; composed with the histories of Table.v (C05, C30); witnesses for lost samples and for overtaking |
| C87 | nested structures; signature of the Python Table; Client.sample with unpacking | mutual induction on structures (flatten and unflatten as inverse up to the order of keys), composed with C48's function and with C77; witnesses for unchecked structures and empty signatures |
| C88 | arguments and __init__ of the three datasets, from_table_signature, element_spec and the structure of elements, composed with the op, its iterator (C71) and the signature cache (C70) | mutual induction on structures; composition with the theorems about get_next and initialize; witness for an unreachable server |
| C89 | no new code: the models of C85, C73, C86, C71 and C88 put together | composition: C39/C58 for what arrives, C85 for what was asked for, C69 and C88 for the element, C86 for the order and the number |
| C90 | task_worker.h and LastThreadId in thread_stats.cc on the models of UnboundedQueue and PeriodicClosure: threads, Close and checker step by step | invariant of the queue, the threads and the log; for the checker, of the statistics read so far; a measure for the end of Close |
| C91 | no new code: TrajWriter.v with the chunks of its messages and the server of C40 | invariant: a key that was sent and is not remembered belongs to no reference in use |
| C92 | snappy.cc StringSink and CheckedByteArraySink over an address space; tensor_compression.cc CompressTensorAsProto, DecompressTensorFromProto | invariant per call: what the sink holds is what was delivered; frame for all other addresses |
| C93 | pybind.cc NdArrayToTensor, TensorToNdArray and the tables of types; arrays as strided views of memory | equality of the lists of elements in row-major order, then per index; witness for byte order |
| C94 | Writer::AppendSequence as a loop around the Append of Writer.v, with the worker's actions in between | simulation in both directions between runs with AppendSequence and runs with Append; slices specified by their elements; C37 for what is sampled |
| C95 | SampleOp::Compute on top of the first GetNextTimestep (Dataset.v) and of the Sampler with max_samples = 1 (Delivery.v) | columns specified as joined pieces; exact condition for success; composed with the items of Writer.v (C37, C76) and with the invariant of C86 |
| C96 | Table::CanSample and Table::CanInsert next to the calls of Table.v | the answer compared with a run of n calls, by induction on n with the invariant of C02 |
| C97 | several tables in one process whose selectors, limiters and extensions are objects with identity | each table's part of the run is a run of Table.v: invariant over all programs, registration invariant for limiters and extensions |
| C98 | statuses with codes and texts, gRPC conversion, Python exceptions, the timeouts of three Python calls | case analysis over all outcomes, with a specification of substrings |
| C99 | table objects with names and extensions, servers with their maps, Load on objects, requests by name | invariant over all programs; refinement of every table to one that gets its requests alone; Load refines that of Checkpoint.v |
| C100 | __exit__, __del__ and close of the Python writer as a machine around that of TrajWriter.v | traces of it are traces of the writer, so C41 applies; invariant of the closed writer |
| C101 | the flag and the methods of the Python Writer around the machine of Writer.v | invariant of Close over all traces; closed states stay as they are |
| C102 | the loop of net.cc with the answers of the operating system as arguments | induction over the trials |
| C103 | LooseVersion as a splitter and Python's comparison of lists | induction over the text for the splitter; case analysis of the comparison |

## Trusted base

* Coq's kernel (8.16.1, no kernel check switched off, no plugin beyond the ones
  of the standard distribution).
* Axioms: none.  Every property file ends with `Print Assumptions` for each of its
  property theorems, and each prints "Closed under the global context".  (The seven
  `Coq.ssr.ssrunder` constants that a scan of the loaded libraries lists come
  with `ssreflect`, which std++ loads; no theorem depends on them.)
* Floating point: a type class `FP` (Base.v) gives a rounding function, a
  power function and their outcome on NaN; theorems hold for every instance that
  satisfies `FPLaws` (monotone rounding, exact on small values and zero, positive
  power).  Theorems that need exact arithmetic assume `FPExact` and say so.  That IEEE
  doubles satisfy `FPLaws` is trusted.
* The transcription of the C++ code into Gallina, cited line by line.

### What is modelled, where

| source | model | simplifications |
|--------|-------|-----------------|
| rate_limiter.cc (counters, CanInsert, CanSample, Await*) | RateLimiter.v, LimiterWait.v (threads, signals, timeouts) | differences and ratios are exact rationals; 64 bit counters do not overflow |
| rate_limiter.cc StatsManager | EventHistory.v | integer times |
| selectors/fifo.cc, lifo.cc, uniform.cc, heap.cc, prioritized.cc, support/intrusive_heap.h | SelList.v, SelUniform.v, SelHeap.v, SelPrio.v, Selector.v | hash maps are finite maps; a draw is an argument |
| table.cc without worker | Table.v (calls atomic), checked against TableSpec.v and EventLog.v | signature of the table not checked; deleted items are freed at once |
| table.cc TableWorkerLoop, InsertOrAssignAsync, EnqueSampleRequest | TableWorker.v | callbacks run once (C53) |
| table.cc ExtensionOperation, ExtensionsWorkerLoop | ExtWorker.v | iterators invalidated by rehashing not modelled |
| table.cc Checkpoint, InsertCheckpointItem; platform/tfrecord_checkpointer.cc | Checkpoint.v, CkptDir.v | a record file is the list of its records; a directory operation is atomic |
| reverb_service_impl.cc and reverb_service_async_impl.cc Initialize | Service.v | damaged record files are in LoadFull.v |
| rate_limiters.py, server.py constructors | PyConfig.v | |
| trajectory_writer.py | PyWriter.v | structures are trees of dictionaries and sequences; the C++ writer is an argument |
| client.cc server info cache, NewSampler, NewTrajectoryWriter; sampler.cc ValidateAgainstOutputSpec | SigCheck.v | the answer of the ServerInfo RPC is an argument |
| ops/dataset.cc, ops/timestep_dataset.cc, ops/trajectory_dataset.cc: attribute check, Initialize, GetNextInternal | Dataset.v | what the Sampler pops and when the context is cancelled are arguments; serialisation of the dataset left out |
| client.cc GetLocalTablePtr; InitializeConnection of both services | Handshake.v | one allocation per call; a broken call may lose messages and fail reads and writes at any point |
| client.py insert, sample, _get_signature_for_table; ops/client.cc InsertOp | PyClient.v | nested structures are lists of leaves; the writer is Writer.v with chunk_length 1; ReplaySample is a pair of information and leaves |
| support/periodic_closure.cc, platform/default/thread.cc, platform/default/server.cc | Closure.v | Initialize is one step; grpc::Server::Wait returns once Shutdown has been called; a destroyed server is not used |
| client.cc MutatePriorities; ops/client.cc UpdatePrioritiesOp; reverb_service_*impl.cc MutatePriorities | MutateRpc.v | gRPC: a request is handled at most once, at any time or never; the calling op has no other effect; handling is one step |
| platform/tfrecord_checkpointer.cc Save, several at a time | SaveConc.v | two calls never get the same name; names ordered like the times; writes after the deletion of an open file are lost; which files DeleteRecursively finds is left open |
| platform/tfrecord_checkpointer.cc Load with damaged files and the old format | LoadFull.v | the record format and its checksums are TensorFlow's: a file is a sequence of records with an end; extensions of a table whose load fails are lost in the code |
| trajectory_writer.py on pybind.cc and trajectory_writer.cc | PyTraj.v | ConfigureChunker may happen between any two calls with any options; negative steps of slices are not modelled; other Python threads only through the C++ writer's Close |
| sampler.cc with its streams | Delivery.v | a stream is a list of samples; what is on it is lost when FetchSamples returns; OK is reported only after everything written has been read |
| server.py:141-152, reverb_types.py:78-86, client.py:409-445 with nested structures | PyTree.v | dm-tree's flatten/unflatten_as and StructureCoder are modelled by their behaviour on lists, tuples, named tuples and dictionaries with string keys; bounds of BoundedTensorSpec are left out |
| dataset.py, timestep_dataset.py, trajectory_dataset.py; sampler.cc Options::Validate | PyDataset.v | tf.data's own machinery is left out: an element is what the op emits, put into the structure of element_spec; all options are integers |
| task_worker.h, thread_stats.cc:LastThreadId | TaskWorker.v | one critical section, call or return of a callback per step; times in milliseconds; one Close at a time, not from a callback |
| pybind.cc:127-388 | PyArray.v | NumPy: PyArray_FromAny, iterators and GETITEM as documented; objects are bytes, str (code points) or opaque |
| writer.cc:120-151 (AppendSequence) | AppendSeq.v | alignment of slices (DeepCopy) not modelled |
| ops/client.cc:131-170 (SampleOp); tf_client.py sample | TfSample.v | lookup of the resource left out; the comparison of output types by TensorFlow's executor is part of the op |
| table.cc:1055-1063 (CanSample, CanInsert); server.py can_sample, can_insert | TableAsk.v | exact rationals as in RateLimiter.v |
| table.cc:131-182 (constructor, destructor), rate_limiter.cc:76-94, table_extensions/base.cc:25-42; pybind.cc Table | Assembly.v | synchronous extensions; no worker threads; tables whose sampler and remover are one object only for the two Insert calls |
| support/grpc_util.h; errors.cc; pybind.cc MaybeRaiseFromStatus, Flush, EndEpisode, ServerInfo; flush, end_episode and server_info in Python | PyErrors.v | the time at which a wait ends is an argument; texts of gRPC itself assumed |
| Server.__init__ and stop in server.py; server.cc Initialize; reverb_service_impl.cc Initialize, TableByName, ServerInfo; UnsafeClearExtensions | ServerTables.v | checkpoints are readable (LoadFull.v has the others); objects are never destroyed; getting the port is an argument |
| __enter__, __exit__, __del__, close in trajectory_writer.py | WithBlock.v | exceptions are ReverbError or others; the interpreter calls __del__ at any moment outside of calls |
| class Writer in client.py | WriterClose.v | flattening of data is in C48; a destroyed object gets no calls |
| platform/default/net.cc | Net.v | the failures of the system calls of one attempt are one; one call at a time |
| platform/default/ensure_tf_install.py | TfVersion.v | LooseVersion of distutils as documented, on ASCII texts |
| support/queue.h, unbounded_queue.h, task_executor.cc | Queue.v, Executor.v | critical sections atomic |
| chunk_store.{h,cc} | ChunkStore.v | reference counts change atomically, one at a time |
| chunker.{h,cc} | Chunker.v, ChunkerOptions.v | compression is the identity; tensors are type, shape, elements |
| tensor_compression.cc | Tensor.v, Snappy.v | delta encoding per width; in the models of the chunks Snappy is the identity, which C92 justifies |
| platform/default/snappy.cc | Snappy.v | memory is a function from addresses to bytes; the Snappy library is any list of calls that follows the protocol of its sinks |
| support/signature.cc, trajectory_util.cc | Signature.v, TrajUtil.v, Trajectory.v | |
| sampler.cc | Sample.v, Sampler.v, Stream.v (reassembly) | answers of server and table are arguments |
| trajectory_writer.cc | TrajWriter.v | key generator never repeats a key |
| writer.cc | Writer.v | same |
| reverb_service_impl.cc (insert and sample streams), reverb_service_async_impl.cc, reverb_server_table_reactor.h | Stream.v, Reactor.v, PropInsertStream.v, Timeouts.v | gRPC is what it was asked to do; misuse is a crash |

### What is not modelled

* memory allocation, destruction of objects, moved-from objects, exceptions, memory
  ordering below the level of mutexes and single atomic reference counts;
* gRPC itself, the contents of protobuf messages beyond the fields used, time
  (time points and deadlines are arguments), logging, FormatThreadStats;
* the parts of client.cc not listed above, the TensorFlow ops
  (ops/) apart from the iterators of the datasets, the bindings of pybind.cc (apart from arrays) and the Python layer apart from the table constructors and
  trajectory_writer.py and the methods of client.py listed above;
* the Snappy library itself (only its calls on the sinks), string tensors in delta encoding, tensor memory layout;
* the iteration order of hash maps is arbitrary (an argument) where it matters;
* liveness is stated as "no state is stuck" together with bounds on the number of steps
  between external events; fairness of the scheduler is assumed where a theorem
  speaks of a state at rest.
