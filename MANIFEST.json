{
 "claims": [
  {
   "property": "C01",
   "status": "partial",
   "theorems": [
    "C01_size_bound_partial",
    "C01_size_bound_not_prioritized",
    "C01_size_bound_refuted"
   ],
   "note": "holds for every history whose priorities the selectors accept, and for every history when no selector is Prioritized; false of the code after a priority rejected by a Prioritized selector (witness)"
  },
  {
   "property": "C02",
   "status": "proved",
   "theorems": [
    "C02_no_crash",
    "C02_accounting",
    "C02_no_internal_error"
   ],
   "note": "for accepted priorities; C26 shows the crash after a rejected one"
  },
  {
   "property": "C03",
   "status": "proved",
   "theorems": [
    "C03_sample_window",
    "C03_insert_window",
    "C03_counts"
   ],
   "note": "limiter arithmetic is exact"
  },
  {
   "property": "C04",
   "status": "proved",
   "theorems": [
    "C04_no_deadlock",
    "C04_insert_unblocked",
    "C04_sample_unblocked",
    "C04_table_too_small"
   ],
   "note": "the last theorem: with min_size_to_sample > max_size, which Python accepts, no sample is ever returned"
  },
  {
   "property": "C05",
   "status": "proved",
   "theorems": [
    "C05_max_times",
    "C05_samples_logged",
    "C05_client_count_refuted"
   ],
   "note": "holds for items that arrive with times_sampled 0; refuted for a client that sends another count"
  },
  {
   "property": "C06",
   "status": "proved",
   "theorems": [
    "C06_insert_effect",
    "C09_table_fifo",
    "C10_table_lifo",
    "C11_table_heap"
   ],
   "note": ""
  },
  {
   "property": "C07",
   "status": "proved",
   "theorems": [
    "C07_assign_existing"
   ],
   "note": ""
  },
  {
   "property": "C08",
   "status": "proved",
   "theorems": [
    "C08_same_keys",
    "C08_samples_current",
    "C08_not_again",
    "C08_not_after_reset",
    "C08_selector_keys",
    "C08_selector_sample_present"
   ],
   "note": ""
  },
  {
   "property": "C09",
   "status": "proved",
   "theorems": [
    "C09_fifo",
    "C09_table_fifo"
   ],
   "note": ""
  },
  {
   "property": "C10",
   "status": "proved",
   "theorems": [
    "C10_lifo",
    "C10_table_lifo"
   ],
   "note": ""
  },
  {
   "property": "C11",
   "status": "proved",
   "theorems": [
    "C11_heap",
    "C11_table_heap"
   ],
   "note": "for priorities that are not NaN"
  },
  {
   "property": "C12",
   "status": "proved",
   "theorems": [
    "C12_uniform"
   ],
   "note": ""
  },
  {
   "property": "C13",
   "status": "proved",
   "theorems": [
    "C13_prio_distribution",
    "C13_prio_zero_weight",
    "C13_prio_all_zero"
   ],
   "note": "exact arithmetic"
  },
  {
   "property": "C14",
   "status": "proved",
   "theorems": [
    "C14_prio_any_rounding"
   ],
   "note": ""
  },
  {
   "property": "C15",
   "status": "proved",
   "theorems": [
    "C15_episodes"
   ],
   "note": ""
  },
  {
   "property": "C16",
   "status": "proved",
   "theorems": [
    "C16_unique"
   ],
   "note": "for items that arrive with times_sampled 0"
  },
  {
   "property": "C17",
   "status": "proved",
   "theorems": [
    "C17_restore_same",
    "C17_restored_safe",
    "C17_future",
    "C17_clock_order",
    "C17_distinct_order",
    "C17_uniform_same",
    "C17_prio_same",
    "C17_save_load",
    "C17_equal_times_refuted",
    "C17_heap_ties_refuted"
   ],
   "note": "contents, counters, future behaviour (fifo, lifo, heap) and sampling probabilities (uniform, prioritized with exact arithmetic); the two refuted theorems show that equal insertion times and touched heap ties lose the order"
  },
  {
   "property": "C18",
   "status": "partial",
   "theorems": [
    "C18_load_no_crash_partial",
    "C18_load_no_crash_refuted"
   ],
   "note": "holds for tables whose history had accepted priorities only; false after a rejected one (witness: the server aborts on every start)"
  },
  {
   "property": "C19",
   "status": "proved",
   "theorems": [
    "C19_latest",
    "C19_crash_safe",
    "C19_saved",
    "C19_history",
    "C19_kept",
    "C19_crash_then_load",
    "C19_foreign_entry_refuted",
    "C19_clock_back_refuted",
    "C19_same_name_refuted"
   ],
   "note": "the refuted theorems show that the assumption on names is needed"
  },
  {
   "property": "C20",
   "status": "proved",
   "theorems": [
    "C20_replay",
    "C20_events_matched",
    "C20_call"
   ],
   "note": "synchronous extensions"
  },
  {
   "property": "C21",
   "status": "proved",
   "theorems": [
    "C21_mutate"
   ],
   "note": ""
  },
  {
   "property": "C22",
   "status": "proved",
   "theorems": [
    "C22_reset_fresh"
   ],
   "note": "open tables; Prioritized selectors under exact arithmetic only"
  },
  {
   "property": "C23",
   "status": "proved",
   "theorems": [
    "C23_batch"
   ],
   "note": ""
  },
  {
   "property": "C24",
   "status": "proved",
   "theorems": [
    "C24_metadata"
   ],
   "note": ""
  },
  {
   "property": "C25",
   "status": "partial",
   "theorems": [
    "C25_no_lost_wakeup_partial",
    "C25_bounded",
    "C25_runs",
    "C25_refuted"
   ],
   "note": "Any number of threads, every choice of the thread a signal wakes, spurious wake-ups, timeouts of threads that have not been signalled; signalled threads come to rest in a bounded number of turns. Proved for accepted priorities; false otherwise: a woken insertion that is rejected does not pass the signal on (C25_refuted)."
  },
  {
   "property": "C26",
   "status": "partial",
   "theorems": [
    "C26_rejected_unchanged_partial",
    "C26_invalid_item_unchanged",
    "C26_rejected_insert_kept",
    "C26_rejected_insert_then_delete_crashes",
    "C26_rejected_update_kept",
    "C26_rejected_unchanged_refuted",
    "C26_rejected_update_refuted"
   ],
   "note": "false of the code for Prioritized selectors (refuted with witnesses and exact effect); proved for the other selectors"
  },
  {
   "property": "C27",
   "status": "partial",
   "theorems": [
    "C27_atomic_partial",
    "C27_no_crash",
    "C27_refuted"
   ],
   "note": "Proved for runs in which no call starts while another one waits for room in the extension buffer (however often calls wait, whatever the extension worker does). False otherwise: ExtensionOperation releases mu_ in the middle of DeleteItem, a second deletion of the same item aborts the process or counts the episode twice (C27_refuted)."
  },
  {
   "property": "C28",
   "status": "partial",
   "theorems": [
    "C28_answered_once",
    "C28_answer",
    "C28_order",
    "C28_quiet_partial",
    "C28_comes_to_rest",
    "C28_bounded",
    "C28_close_partial",
    "C28_refuted"
   ],
   "note": "Every run: at most one answer, what it says, FIFO. Proved for accepted priorities: at rest only requests that the limiter holds back are unanswered, the worker comes to rest in a bounded number of steps, after Close all are answered. False if one priority is rejected: the worker ends and no request is ever answered (C28_refuted)."
  },
  {
   "property": "C29",
   "status": "partial",
   "theorems": [
    "C29_order",
    "C29_prefix",
    "C29_callbacks",
    "C29_quiet_partial",
    "C29_wakeup_refuted"
   ],
   "note": "Every run: applied once, in order; callbacks in order, once, with the right status. At rest nobody waits without need in runs in which MutateItems and Reset do not fall between the two critical sections of the worker; otherwise a wake-up is lost (C29_wakeup_refuted)."
  },
  {
   "property": "C30",
   "status": "proved",
   "theorems": [
    "C30_queue",
    "C30_exactly_once",
    "C30_deletes_keep_room_refuted"
   ],
   "note": ""
  },
  {
   "property": "C31",
   "status": "proved",
   "theorems": [
    "C31_lossless",
    "C31_format",
    "C31_untouched",
    "C31_list"
   ],
   "note": "For every shape with at least one row, every width and all values: decoding gives the tensor back; format as documented; other tensors untouched."
  },
  {
   "property": "C32",
   "status": "proved",
   "theorems": [
    "C32_refines",
    "C32_fifo",
    "C32_drain",
    "C32_closed",
    "C32_wait"
   ],
   "note": "each call is one atomic action of the mutex-protected queue"
  },
  {
   "property": "C33",
   "status": "partial",
   "theorems": [
    "C33_pop_batch_partial",
    "C33_after_last",
    "C33_pop_batch_refuted"
   ],
   "note": "holds until SetLastItemPushed; afterwards PopBatch never returns the remaining elements although Pop does (witness)"
  },
  {
   "property": "C34",
   "status": "proved",
   "theorems": [
    "C34_stack",
    "C34_exactly_once"
   ],
   "note": ""
  },
  {
   "property": "C35",
   "status": "partial",
   "theorems": [
    "C35_held_found_partial",
    "C35_get_sound",
    "C35_insert",
    "C35_no_leak",
    "C35_held_found_refuted"
   ],
   "note": "every interleaving of calls, pointer drops, deleters and cleanups; false when a key is inserted again between the death of its chunk and the cleanup (witness)"
  },
  {
   "property": "C36",
   "status": "partial",
   "theorems": [
    "C36_window_partial",
    "C36_recognised",
    "C36_crash",
    "C36_window_refuted"
   ],
   "note": "Proved for all windows that start in the first and end in the last chunk (all callers that choose the chunks to fit). The full quantifier is false: windows that start later give slices with negative length (C36_window_refuted), windows that end earlier crash (C36_crash)."
  },
  {
   "property": "C37",
   "status": "partial",
   "theorems": [
    "C37_writer_partial",
    "C37_writer_held_partial",
    "C37_flush_refuted"
   ],
   "note": "Whole path from Append to sampling and unpacking, for runs whose calls succeed and items of steps the writer still holds. False after Flush: short chunks push steps out of the buffer although CreateItem still accepts them, and the item has a negative offset (C37_flush_refuted)."
  },
  {
   "property": "C38",
   "status": "partial",
   "theorems": [
    "C38_no_crash",
    "C38_resolved",
    "C38_get_data",
    "C38_unique",
    "C38_window",
    "C38_size",
    "C38_size_now",
    "C38_flush_partial",
    "C38_eventually_partial",
    "C38_partial_shape_refuted",
    "C38_size_tuned_refuted"
   ],
   "note": "All histories of appends, flushes, resets, config changes and tuning steps. Eventual resolution is proved for columns whose specification fixes every size (which is what the writers create) and false otherwise (C38_partial_shape_refuted: one tensor of another size and no reference is ever resolved). The size bound is the greatest max_chunk_length of the history, and the current one without auto tuning; with auto tuning the current one can be exceeded (C38_size_tuned_refuted)."
  },
  {
   "property": "C39",
   "status": "partial",
   "theorems": [
    "C39_trajectory_partial",
    "C39_gap_refuted"
   ],
   "note": "Whole path: append, chunk, stream, store, sample, unpack, for every reachable writer and every item whose references to one chunk are consecutive. False for other items: references with gaps or repetitions within a chunk are merged into one slice and other rows are sampled (C39_gap_refuted)."
  },
  {
   "property": "C40",
   "status": "proved",
   "theorems": [
    "C40_trajectory_async",
    "C40_trajectory_sync",
    "C40_trajectory_no_crash",
    "C40_writer_async",
    "C40_writer_sync",
    "C40_writer_no_crash"
   ],
   "note": "Both writers against both servers, every reachable state: histories with stream failures and retries."
  },
  {
   "property": "C41",
   "status": "partial",
   "theorems": [
    "C41_trajectory",
    "C41_trajectory_all",
    "C41_writer_partial",
    "C41_writer_twice_partial",
    "C41_writer_close_partial",
    "C41_writer_flush_refuted",
    "C41_writer_close_refuted"
   ],
   "note": "Proved for TrajectoryWriter, Flush(n) and EndEpisode, every run. False for Writer with max_in_flight_items: Flush and Close return OK with unconfirmed items (witnesses); proved: at most max_in_flight items are unconfirmed, two Flushes in a row confirm everything created before, and so does a Close that returns OK if the worker has not met a broken stream."
  },
  {
   "property": "C42",
   "status": "proved",
   "theorems": [
    "C42_client",
    "C42_sync",
    "C42_async",
    "C42_async_prefix",
    "C42_async_count"
   ],
   "note": "For every list of samples as the table holds them (chunks = GetChunkKeys of the trajectory, C50), every size function and limit, and every order of reads, writes and sampling callbacks: the reassembled samples are those a client in the server's process gets."
  },
  {
   "property": "C43",
   "status": "proved",
   "theorems": [
    "C43_bound",
    "C43_request",
    "C43_out_of_range",
    "C43_failure"
   ],
   "note": "Any number of stream and local workers and of concurrent calls, every interleaving, Unavailable streams retried, Close at any time. Assumes that a server sends at most the number of samples requested."
  },
  {
   "property": "C44",
   "status": "partial",
   "theorems": [
    "C44_timesteps_partial",
    "C44_deterministic",
    "C44_timesteps_exact",
    "C44_timesteps_refuted"
   ],
   "note": "C44_timesteps_exact: the timesteps can be had one by one exactly if all columns are divided into pieces alike. Proved for all samples whose columns are divided into pieces of the same lengths (what a timestep trajectory gives). The full quantifier is false: with columns divided differently GetNextTimestep reports half way that the sample cannot be decomposed (C44_timesteps_refuted), because is_composed_of_timesteps ignores the rows already returned."
  },
  {
   "property": "C45",
   "status": "partial",
   "theorems": [
    "C45_sample_safe",
    "C45_sample_in_flight_partial",
    "C45_sample_once",
    "C45_sample_status",
    "C45_sample_progress",
    "C45_sample_cancel_partial",
    "C45_sample_in_flight_refuted",
    "C45_sample_cancel_refuted",
    "C45_insert_safe",
    "C45_insert_in_flight_partial",
    "C45_insert_confirmations",
    "C45_insert_once",
    "C45_insert_status",
    "C45_insert_progress",
    "C45_insert_cancel_partial",
    "C45_insert_in_flight_refuted",
    "C45_insert_cancel_refuted"
   ],
   "note": "Proved: one write at a time, one Finish, never OK with responses left, in-flight message untouched until Finish, no stuck stream without cancellation. False: SetReactorAsFinished frees the message in flight, and a cancelled stream can stay unfinished for ever (witnesses)."
  },
  {
   "property": "C46",
   "status": "partial",
   "theorems": [
    "C46_history_partial",
    "C46_reported_later",
    "C46_counts",
    "C46_history_refuted",
    "C46_overrun_refuted"
   ],
   "note": "the history lacks its last event until one more event has finished (refuted for every buffer size); an event that stays active while the buffer wraps around is never removed (second witness)"
  },
  {
   "property": "C47",
   "status": "proved",
   "theorems": [
    "C47_bounds",
    "C47_small_steps"
   ],
   "note": "for every rounding of the scores; also: none of the CHECKs fails"
  },
  {
   "property": "C48",
   "status": "proved",
   "theorems": [
    "C48_order",
    "C48_error",
    "C48_count"
   ],
   "note": "For every structured value and conforming nested data: the i-th flat entry describes the i-th tensor of tree.flatten, names are slash-joined paths, one entry per leaf, InvalidArgument exactly for unsupported node kinds."
  },
  {
   "property": "C49",
   "status": "partial",
   "theorems": [
    "C49_sync",
    "C49_async_partial",
    "C49_streams_partial",
    "C49_timeouts_refuted"
   ],
   "note": "the asynchronous service waits for ever for timeout 0; the synchronous one uses the timeout of the first request for the whole stream"
  },
  {
   "property": "C50",
   "status": "proved",
   "theorems": [
    "C50_keys",
    "C50_unique",
    "C50_accepts",
    "C50_rejects"
   ],
   "note": "For every trajectory; the specification determines the list."
  },
  {
   "property": "C51",
   "status": "partial",
   "theorems": [
    "C51_clone_partial",
    "C51_delta_never_used",
    "C51_clone_refuted"
   ],
   "note": "Clone drops delta_encode (and the tuned length), so the chunkers of a trajectory writer never delta encode"
  },
  {
   "property": "C52",
   "status": "partial",
   "theorems": [
    "C52_async_crash_iff",
    "C52_sync_crash_iff",
    "C52_async_partial",
    "C52_sync_partial",
    "C52_refuted"
   ],
   "note": "False as stated (C52_refuted: an empty message, or keep_chunk_keys naming a chunk that is not held). Proved: exactly which messages crash, and that all other sequences do not."
  },
  {
   "property": "C53",
   "status": "proved",
   "theorems": [
    "C53_exactly_once",
    "C53_accepted",
    "C53_close_returns"
   ],
   "note": "any number of threads, every interleaving; a task scheduled after Close has started is refused"
  },
  {
   "property": "C54",
   "status": "partial",
   "theorems": [
    "C54_refuted",
    "C54_partial"
   ],
   "note": "False as stated (witness: the sampling callback of a finished stream enqueues the next request). Proved: the number of samples never exceeds what the client asked for."
  },
  {
   "property": "C55",
   "status": "partial",
   "theorems": [
    "C55_partial",
    "C55_refuted"
   ],
   "note": "False as stated: a popped sample that does not fit the signature is neither counted nor replaced, after which nothing but Close can happen (C55_refuted). Proved as long as no sample has been refused."
  },
  {
   "property": "C56",
   "status": "partial",
   "theorems": [
    "C56_no_crash_partial",
    "C56_no_crash_refuted"
   ],
   "note": "False as stated: CreateItem with an empty column beside a non-empty one accesses element 0 of an empty vector (C56_no_crash_refuted). Proved: nothing else crashes."
  },
  {
   "property": "C57",
   "status": "partial",
   "theorems": [
    "C57_flush_waits_partial",
    "C57_wakeup_partial",
    "C57_flush_refuted",
    "C57_wakeup_refuted"
   ],
   "note": "False as stated: an item written to a stream that then broke stays in flight for ever, so Flush never returns (C57_flush_refuted), and an Append that fails midway leaves the worker asleep on data that is there (C57_wakeup_refuted). Proved: without failed Appends there is no lost wake-up, and Flush waits only for unconfirmed items."
  },
  {
   "property": "C58",
   "status": "proved",
   "theorems": [
    "C58_signature",
    "C58_sampled_partial",
    "C58_writer"
   ],
   "note": "Every accepted item, all histories, both writers; C58_sampled_partial combines it with C39 (consecutive references within a chunk)."
  },
  {
   "property": "C59",
   "status": "partial",
   "theorems": [
    "C59_writer_partial",
    "C59_sequence_partial",
    "C59_loss_refuted",
    "C59_zero_refuted",
    "C59_zero_buffer_refuted"
   ],
   "note": "False as stated: after a DataLoss error the half closed stream is used again, and CreateItem(0) reads past the buffer (witnesses). Proved: nothing else crashes."
  },
  {
   "property": "C60",
   "status": "partial",
   "theorems": [
    "C60_trajectory",
    "C60_writer_partial",
    "C60_writer_refuted"
   ],
   "note": "Proved for TrajectoryWriter, every run, also for chunks sent again on another stream. False for Writer: a failed Append reuses the key for another content (C60_writer_refuted); proved for runs of Writer whose Appends and Flushes succeed."
  },
  {
   "property": "C61",
   "status": "partial",
   "theorems": [
    "C61_serial_partial",
    "C61_no_crash_partial",
    "C28_refuted"
   ],
   "note": "Every run with accepted priorities, synchronous extensions only (C27 for the others). With a rejected priority the worker stops (C28_refuted)."
  },
  {
   "property": "C62",
   "status": "partial",
   "theorems": [
    "C62_ok_applied_partial",
    "C62_returns_partial",
    "C62_ok_applied_refuted",
    "C62_returns_refuted"
   ],
   "note": "False as stated: after Close it returns OK for an item that was dropped, and it does not return while a sampling request waits (witnesses). Proved: as long as the table is open OK implies applied; it returns if all items are applied and no request waits."
  },
  {
   "property": "C63",
   "status": "partial",
   "theorems": [
    "C25_no_lost_wakeup_partial",
    "C63_timeout_refuted"
   ],
   "note": "Proved for timeouts of threads that have not been signalled. False in general: absl::CondVar may report the timeout to a thread that was signalled, and the code returns without passing the signal on (C63_timeout_refuted)."
  },
  {
   "property": "C64",
   "status": "partial",
   "theorems": [
    "C64_small_buffer_partial",
    "C64_one_thread_partial",
    "C64_refuted"
   ],
   "note": "False as stated: the extension worker wakes one thread per full batch (C64_refuted, two threads, buffer of two). Proved for buffers of one request and if at most one thread waits at a time."
  },
  {
   "property": "C65",
   "status": "partial",
   "theorems": [
    "C65_told_in_order_partial",
    "C65_view_partial",
    "C27_refuted"
   ],
   "note": "Proved for runs in which no call starts while another one waits for room in the buffer."
  },
  {
   "property": "C66",
   "status": "partial",
   "theorems": [
    "C66_history_partial",
    "C66_set_once_partial",
    "C66_last_partial",
    "C66_index_partial",
    "C66_open_end_refuted",
    "C66_bare_refuted",
    "C66_empty_refuted",
    "C66_timeout_refuted"
   ],
   "note": "Proved for runs in which all steps are containers or all are bare values, every step has a leaf and end_episode is not called with an open step. False otherwise (witnesses): an open step at end_episode makes episode_steps negative and every later append fail; a bare value followed by a dict corrupts the history; steps without leaves are not counted; after a timeout of end_episode the history is kept although the documentation says it is reset."
  },
  {
   "property": "C67",
   "status": "proved",
   "theorems": [
    "C67_configure",
    "C67_stable"
   ],
   "note": "All runs."
  },
  {
   "property": "C68",
   "status": "partial",
   "theorems": [
    "C68_restart_partial",
    "C68_safe_partial",
    "C18_load_no_crash_refuted"
   ],
   "note": "All runs of the system (starts, calls, interrupted Saves, crashes), any number of generations. Missing: directories whose names do not increase with time and foreign entries (C19), calls with priorities the selectors reject (C18_load_no_crash_refuted), two Saves at the same time (see C82)."
  },
  {
   "property": "C69",
   "status": "partial",
   "theorems": [
    "C69_trajectory",
    "C69_batched",
    "C69_timestep",
    "C69_end_to_end_partial",
    "C69_writer_partial",
    "C69_user_partial",
    "C69_user_refuted",
    "C69_info_refuted",
    "C69_modes_refuted"
   ],
   "note": "Handed out iff it fits: proved for all three ways. Never refused: proved for items of a TrajectoryWriter read as trajectories and for items of a Writer (no Flush before, see C37) read as batches or timesteps. False for items of a TrajectoryWriter read as timesteps (witness). What the caller demands is met if the signature is at least as strict; false otherwise (witness: the signature leaves a size open), and the four info tensors are never compared with what the caller demands (witness)."
  },
  {
   "property": "C70",
   "status": "partial",
   "theorems": [
    "C70_answer",
    "C70_source",
    "C70_stable",
    "C70_refresh_partial",
    "C70_stale_refuted",
    "C70_immediate_refuted"
   ],
   "note": "Proved: cached signatures are those of one answer, stable, and refreshed by ServerInfo if different answers have different ids. False: a restarted server is not noticed by NewSampler and the writers (witness); with timeout -infinity and an empty cache a TrajectoryWriter takes the server to have no tables and accepts no item."
  },
  {
   "property": "C71",
   "status": "partial",
   "theorems": [
    "C71_timesteps",
    "C71_accepts",
    "C71_end_partial",
    "C71_end_refuted",
    "C71_cancelled",
    "C71_callbacks_partial",
    "C71_callbacks_refuted",
    "C71_items",
    "C71_recovery_refuted",
    "C71_stuck_refuted",
    "C71_sequence_refuted"
   ],
   "note": "Order, completeness and lengths proved for all runs up to the first report that is not an element, with the exact conditions for the end of the sequence. False (witnesses): with sequence_length 1 a timeout is an InvalidArgument; the InvalidArgument returns leave the callback registered; after an item of a wrong length all later items are cut; an item that is not made of timesteps blocks the iterator for ever; emitted sequences are not checked against sequence_length."
  },
  {
   "property": "C72",
   "status": "partial",
   "theorems": [
    "C72_result",
    "C72_server",
    "C72_safe_partial",
    "C72_progress_partial",
    "C72_sync",
    "C72_broken_refuted",
    "C72_namespace_refuted",
    "C72_foreign_refuted"
   ],
   "note": "The right table, no leak and a single Finish proved for all interleavings including broken calls; memory safety, the exact outcome and termination for calls that are not broken and process ids that are unique. False (witnesses): a call broken after the address was sent lets the client read a deleted pointer; equal process ids in different namespaces let it use a foreign address; another client program makes the asynchronous server call Finish twice."
  },
  {
   "property": "C73",
   "status": "partial",
   "theorems": [
    "C73_end_to_end_partial",
    "C73_sync_partial",
    "C73_one_writer",
    "C73_all_partial",
    "C73_worker_partial",
    "C73_one_old_writer",
    "C73_no_flush",
    "C39_gap_refuted",
    "C37_flush_refuted"
   ],
   "note": "Proved for all histories, for any number of writers of both kinds and of clients, for the table without and with worker thread, if keys drawn at random by different writers never collide (for a single writer this is proved). For a TrajectoryWriter: items without non-consecutive references to one chunk in a row (false otherwise: C39_gap_refuted). For a Writer: runs without Close in which every Append and Flush succeeds, steps of one kind, and items of steps that it still holds (false otherwise: C37_flush_refuted)."
  },
  {
   "property": "C74",
   "status": "proved",
   "theorems": [
    "C74_order",
    "C74_exactly_once"
   ],
   "note": "All runs, with any number of streams."
  },
  {
   "property": "C75",
   "status": "partial",
   "theorems": [
    "C75_queue_partial",
    "C75_exactly_once_refuted",
    "C75_none_lost_refuted"
   ],
   "note": "Proved if no Write fails although its message arrives and if the server handles all messages of a stream before it breaks. False otherwise (witnesses): such a Write makes the queue hand out the item twice; an item whose Write succeeded on a stream that breaks before the server handles it is never sent again."
  },
  {
   "property": "C76",
   "status": "partial",
   "theorems": [
    "C76_insert_sampled",
    "C76_insert_stored_once",
    "C76_insert_prefix",
    "C76_insert_returns_partial",
    "C76_insert_no_crash_partial",
    "C76_confirmed_refuted",
    "C76_atomic_refuted",
    "C76_crash_refuted"
   ],
   "note": "What is stored and where: all runs. That a normal return means that all items are confirmed is proved if the stream is not found broken (false otherwise, witness) and for a writer with max_in_flight_items, as in Python. False (witnesses): atomicity if insert raises; no crash of the client after a write fails with an item in flight."
  },
  {
   "property": "C77",
   "status": "partial",
   "theorems": [
    "C77_split",
    "C77_split_fails",
    "C77_split_raises",
    "C77_trajectory",
    "C77_generator",
    "C77_like_sampler",
    "C77_insert_sample",
    "C77_signature_cached",
    "C77_signature_refuted"
   ],
   "note": "All samples. The signature used for unpacking is that of the first answer of the server, not the current one (witness). Structures are lists of leaves here; nested ones are in C87."
  },
  {
   "property": "C78",
   "status": "partial",
   "theorems": [
    "C78_slice",
    "C78_refused",
    "C78_column",
    "C78_crash_iff",
    "C78_item_partial",
    "C78_negative_refuted"
   ],
   "note": "Every chunk that holds columns with at least one row. A negative length whose window ends inside the chunk aborts the process (C78_negative_refuted; C78_crash_iff: nothing else does). Numbers are unbounded, so offset + length does not overflow."
  },
  {
   "property": "C79",
   "status": "partial",
   "theorems": [
    "C79_no_overlap",
    "C79_start_once",
    "C79_stopped",
    "C79_stop_bounded",
    "C79_stop_returns",
    "C79_rate",
    "C79_gap_refuted",
    "C79_second_stop_refuted",
    "C79_inside_refuted"
   ],
   "note": "All runs. False (witnesses): consecutive calls can start closer together than a period (the n-th is still n periods after Start); a second Stop returns before the function has ended; Stop called by the function ends the process."
  },
  {
   "property": "C80",
   "status": "partial",
   "theorems": [
    "C80_stop",
    "C80_wait",
    "C80_wait_stopped",
    "C80_sigint_stops",
    "C80_sigint_progress",
    "C80_two_servers_refuted",
    "C80_one_server_refuted",
    "C80_handler_kept",
    "C80_ignored_refuted"
   ],
   "note": "All runs. False (witnesses): of several servers a SIGINT stops only the one whose Wait registered last; once any Wait has returned no SIGINT reaches another server that is still waited for; the previous handler is never restored."
  },
  {
   "property": "C81",
   "status": "partial",
   "theorems": [
    "C81_at_least_once",
    "C81_applied",
    "C81_at_most",
    "C81_once_partial",
    "C81_can_return",
    "C81_repeat",
    "C81_alone",
    "C81_request",
    "C81_overwritten_refuted",
    "C81_stale_refuted",
    "C81_unknown_refuted"
   ],
   "note": "At least once, and at most once more than the call failed: all runs. Exactly once and not after the return: calls without a failure on the way (false otherwise, witnesses: a retried update undoes another client's confirmed one; a late first attempt undoes the next call of the same client). Repeated applications with nothing in between have the effect of one."
  },
  {
   "property": "C82",
   "status": "partial",
   "theorems": [
    "C82_safe_partial",
    "C82_kept_partial",
    "C82_restart",
    "C82_few",
    "C82_one_at_a_time",
    "C82_lost_refuted",
    "C82_error_refuted"
   ],
   "note": "All interleavings, errors and crashes, for runs in which a Save that begins to delete sees fewer than keep_latest later Saves that have not succeeded (C82_few); holds for one Save at a time (C82_one_at_a_time). False otherwise: with keep_latest = 1, as the Checkpoint call has it, a Save deletes its own complete checkpoint because a later one has created its directory (C82_lost_refuted); two Saves deleting the same old directory, one returns an error (C82_error_refuted)."
  },
  {
   "property": "C83",
   "status": "partial",
   "theorems": [
    "C83_restart_partial",
    "C83_survives"
   ],
   "note": "All runs of C68 (starts, calls, interrupted Saves, crashes) with the sources of C73 (same conditions on the items: see C37, C39, C60, and keys that do not collide), accepted priorities (C18) and one Save at a time with increasing directory names (C19, C82)."
  },
  {
   "property": "C84",
   "status": "partial",
   "theorems": [
    "C84_loaded",
    "C84_damaged",
    "C84_start_fails",
    "C84_chunk_missing",
    "C84_as_load",
    "C84_saved",
    "C84_undamaged",
    "C84_cut_refuted",
    "C84_no_file_refuted"
   ],
   "note": "False when a file ends exactly after a record (C84_cut_refuted: the tables whose records are gone are empty) and when tables.tfrecord or chunks.tfrecord is missing (C84_no_file_refuted: the server starts empty). A missing chunk ends the process (C84_chunk_missing). For items in the old format the range must be one that FlatTimestepTrajectory accepts (C36)."
  },
  {
   "property": "C85",
   "status": "partial",
   "theorems": [
    "C85_item_partial",
    "C85_partial",
    "C85_worker_partial",
    "C85_columns",
    "C85_stride_refuted"
   ],
   "note": "False for slices with a step: history['a'][::2] is sampled as consecutive steps of the same chunk (C85_stride_refuted; the code of C39_gap_refuted); proved for indices and slices without step. With the restrictions of C66 (every step has a leaf, containers and bare values are not mixed, an episode is not ended inside an open step) and of C73 (random keys do not collide). create_item's structure is the list of its leaves."
  },
  {
   "property": "C86",
   "status": "proved",
   "theorems": [
    "C86_accounted",
    "C86_once",
    "C86_nothing_lost",
    "C86_order",
    "C86_max_times",
    "C86_queue_once",
    "C86_queue_order",
    "C86_timeout_refuted",
    "C86_order_refuted"
   ],
   "note": "The condition that nothing fails is needed: C86_timeout_refuted loses a sample when the request of another worker times out; with two workers samples overtake each other (C86_order_refuted). The table is the serial one of Table.v (linearised by C27 and C61 for tables with a worker)."
  },
  {
   "property": "C87",
   "status": "proved",
   "theorems": [
    "C87_unflatten",
    "C87_flatten_unflatten",
    "C87_places",
    "C87_flatten",
    "C87_count",
    "C87_signature",
    "C87_specs_only",
    "C87_timesteps",
    "C87_trajectory",
    "C87_insert_sample",
    "C87_no_signature",
    "C87_leaves_match",
    "C87_structure_refuted",
    "C87_empty_refuted"
   ],
   "note": "dm-tree and StructureCoder are dependencies, modelled by what they do with lists, tuples, named tuples and dictionaries with strings as keys. The two limits in the statement have witnesses: a dictionary inserted into a table with a named tuple of the same fields as signature comes back with exchanged values (C87_structure_refuted); an empty signature does not restrict anything (C87_empty_refuted)."
  },
  {
   "property": "C88",
   "status": "proved",
   "theorems": [
    "C88_arguments",
    "C88_made",
    "C88_element_spec",
    "C88_initialize",
    "C88_element",
    "C88_places",
    "C88_unchecked_refuted"
   ],
   "note": "The last sentence of the statement has a witness (C88_unchecked_refuted). The length of the sequences emitted by ReplayDataset is C71's subject."
  },
  {
   "property": "C89",
   "status": "proved",
   "theorems": [
    "C89_element",
    "C89_fetched",
    "C89_run",
    "C89_max_times",
    "C89_queue"
   ],
   "note": "The conditions in the statement are needed: C85_stride_refuted (slices with a step), C88_unchecked_refuted (server not reachable when the iterator is made), C86_order_refuted and C86_timeout_refuted (more workers, failures)."
  },
  {
   "property": "C90",
   "status": "proved",
   "theorems": [
    "C90_once",
    "C90_arguments",
    "C90_close",
    "C90_refused",
    "C90_stats",
    "C90_deadlock",
    "C90_deadlock_reported",
    "C90_no_crash",
    "C90_close_returns",
    "C90_no_threads_refuted",
    "C90_schedule_refuted"
   ],
   "note": "At least one thread is needed (C90_no_threads_refuted: the first check reads beyond an empty vector). C90_schedule_refuted: the result of Schedule is the opposite of what its comment says and does not tell whether the task was accepted."
  },
  {
   "property": "C91",
   "status": "proved",
   "theorems": [
    "C91_once",
    "C91_keep",
    "C91_held",
    "C91_once_refuted"
   ],
   "note": "The condition is needed: C91_once_refuted (a reference that only the item being sent still holds; the chunk is sent again, which is harmless)."
  },
  {
   "property": "C92",
   "status": "proved",
   "theorems": [
    "C92_string_sink",
    "C92_tensor_sink",
    "C92_roundtrip",
    "C92_untrusted",
    "C92_corrupt_refuted"
   ],
   "note": "The library is any one that follows the protocol of its sinks and inverts itself. Not claimed, and false (C92_corrupt_refuted): that corrupt data is noticed; the result of Uncompress is dropped and the tensor then holds whatever its memory held."
  },
  {
   "property": "C93",
   "status": "partial",
   "theorems": [
    "C93_lossless_partial",
    "C93_accepts",
    "C93_tensor",
    "C93_byte_order_refuted"
   ],
   "note": "Proved for arrays in the byte order of the machine, any shape and strides. False for the other byte order (C93_byte_order_refuted: NPY_ARRAY_CARRAY_RO does not ask for it and the bytes are copied as they are)."
  },
  {
   "property": "C94",
   "status": "proved",
   "theorems": [
    "C94_unrolled",
    "C94_rolled",
    "C94_sampled",
    "C94_atomic_refuted"
   ],
   "note": "Both directions of the equivalence, with the same state of the writer and the same actions of stream and worker. C94_atomic_refuted: a failed call is not undone, the slices before the failure stay appended."
  },
  {
   "property": "C95",
   "status": "partial",
   "theorems": [
    "C95_first",
    "C95_errors",
    "C95_insert",
    "C95_writer_partial",
    "C95_whole_partial",
    "C95_taken",
    "C95_one_partial",
    "C95_one_refuted",
    "C95_whole_refuted"
   ],
   "note": "When the op succeeds and what it returns, for all items. Only the first step of the item is returned, so the item is returned as a whole exactly when it has one step (C95_whole_refuted for others; what insert made has one step: C95_insert). At most one item is taken as long as nothing fails; C95_one_refuted: if the stream breaks after the server took an item, two are taken."
  },
  {
   "property": "C96",
   "status": "partial",
   "theorems": [
    "C96_sample_no",
    "C96_sample_partial",
    "C96_sample_one",
    "C96_batch_partial",
    "C96_insert_yes",
    "C96_insert_partial",
    "C96_sample_refuted",
    "C96_insert_refuted"
   ],
   "note": "The answer no of can_sample and the answer yes of can_insert are always right, can_sample(1) is exact. can_sample(n) is exact if items are not removed by sampling or enough are left; false otherwise (C96_sample_refuted, the TODO of table.h). can_insert(n) is exact for open tables with max_size >= min_size_to_sample and samples_per_insert >= 0; C96_insert_refuted shows a table with max_size < min_size_to_sample."
  },
  {
   "property": "C97",
   "status": "partial",
   "theorems": [
    "C97_independent_partial",
    "C97_alive",
    "C97_construct",
    "C97_drop",
    "C97_extension",
    "C97_same_selector",
    "C97_shared_selector_refuted",
    "C97_shared_remover_refuted",
    "C97_reused_refuted"
   ],
   "note": "Independence is proved for tables that share no selector or limiter with another table of the program, past or present; a program all of whose tables have their own objects never dies. A limiter or extension in use is always detected (the process dies), a selector in use never: C97_shared_selector_refuted (death at a later sample), C97_shared_remover_refuted (a table above its max_size). C97_reused_refuted: selector or limiter of a destroyed table. The same selector as sampler and remover makes every insertion fail (C97_same_selector)."
  },
  {
   "property": "C98",
   "status": "partial",
   "theorems": [
    "C98_wire",
    "C98_dataset",
    "C98_flush_partial",
    "C98_end_episode_partial",
    "C98_server_info_partial",
    "C98_zero_refuted",
    "C98_text_refuted",
    "C98_limiter_text_refuted"
   ],
   "note": "Proved for positive timeouts or none (all timeouts for end_episode) and failures whose messages do not contain the words by which Python recognises a timeout. False otherwise: a timeout of 0 makes flush and server_info wait for ever (C98_zero_refuted); flush without a timeout raises DeadlineExceededError for other failures whose message contains Timeout exceeded (C98_text_refuted, C98_limiter_text_refuted). The text that gRPC gives to a missed deadline is an assumption of client.py and of the model."
  },
  {
   "property": "C99",
   "status": "partial",
   "theorems": [
    "C99_start",
    "C99_serves_partial",
    "C99_unknown",
    "C99_info_partial",
    "C99_stale",
    "C99_extensions",
    "C99_as_load",
    "C99_stale_refuted",
    "C99_retry_refuted",
    "C99_again_refuted"
   ],
   "note": "Proved for Table objects that are given to one server only, with or without a checkpoint; agreement of Table.info with server_info() if the table is not in the checkpoint. False otherwise: Table.info of a table that was loaded stays what it was before the start (C99_stale, C99_stale_refuted); after a failed start from a checkpoint a second attempt with the same objects has lost the extensions (C99_retry_refuted); a stopped server made again from the same objects dies, or refuses every insertion (C99_again_refuted)."
  },
  {
   "property": "C100",
   "status": "proved",
   "theorems": [
    "C100_left",
    "C100_result",
    "C100_deleted",
    "C100_lost_refuted",
    "C100_close_refuted"
   ],
   "note": "The conditions are needed: an item made before a ReverbError, or by a writer that is dropped, is lost for good (C100_lost_refuted); a body that calls close makes a with statement without an exception fail (C100_close_refuted)."
  },
  {
   "property": "C101",
   "status": "proved",
   "theorems": [
    "C101_sent",
    "C101_closed",
    "C101_unavailable_refuted",
    "C101_failed_refuted"
   ],
   "note": "The conditions are needed: close(retry_on_unavailable=False) returns although items were not sent, and they never are (C101_unavailable_refuted); after close() has raised an exception it cannot be called again although items wait, and create_item still succeeds (C101_failed_refuted).  Sent is not confirmed: C41_writer_close_refuted."
  },
  {
   "property": "C102",
   "status": "partial",
   "theorems": [
    "C102_free",
    "C102_different_partial",
    "C102_finds",
    "C102_dies",
    "C102_same_refuted"
   ],
   "note": "Different ports: proved if every call finds its port within the first hundred trials. False otherwise: from then on the operating system chooses the port, which is not looked up in chosen_ports (C102_same_refuted)."
  },
  {
   "property": "C103",
   "status": "partial",
   "theorems": [
    "C103_release_partial",
    "C103_other_refuted"
   ],
   "note": "Proved for all texts x.y.z with any suffix, as far as x.y.z decides. False otherwise: 2.3.0-rc0, which precedes 2.3.0, is accepted, 2.3 is refused, and a text that does not start with a number raises a TypeError (C103_other_refuted)."
  }
 ]
}