{"id": "C01", "title": "Frame encode/decode round trip", "statement": "A MSG, RPY, ANS, ERR or NUL frame built with vortex_frame_build_up_from_params and received by a peer on an open connection is decoded to a frame with the same type, channel, message number, continuation flag, sequence number, answer number and payload, consuming exactly the bytes that were written.", "quantifier": "every frame type, channel/message number 0..2^31-1, sequence number 0..2^32-1, answer number 0..2^31-1, payload of arbitrary bytes and every suffix of further stream bytes", "why_tests_cant": "the field ranges are 2^31 and 2^32 wide and the payload is an arbitrary byte string (including CR LF, END and NUL bytes)", "anchors": ["src/vortex_frame_factory.c:vortex_frame_build_up_from_params_s_buffer", "src/vortex_frame_factory.c:__vortex_frame_factory_build_header", "src/vortex_frame_factory.c:vortex_frame_get_next", "src/vortex_frame_factory.c:__vortex_frame_factory_get_header_data"]}
{"id": "C02", "title": "SEQ frame encode/decode round trip", "statement": "A SEQ frame built by vortex_frame_seq_build_up_from_params and read by the peer yields the acknowledgement number and window that were written, for every acknowledgement number and every positive window below 2^31.", "quantifier": "every channel number, every 32-bit acknowledgement number, every window", "why_tests_cant": "only the two topmost acknowledgement numbers of 2^32 behave differently", "anchors": ["src/vortex_frame_factory.c:vortex_frame_seq_build_up_from_params_buffer", "src/vortex_frame_factory.c:__vortex_frame_factory_get_header_data", "src/vortex_frame_factory.c:__vortex_frame_factory_get_unsigned_int_value"]}
{"id": "C03", "title": "A frame stream is decoded frame by frame", "statement": "Any number of frames written back to back on one connection are decoded, in order, into exactly those frames with nothing left over.", "quantifier": "every finite list of valid frames (SEQ frames interleaved) of any length", "why_tests_cant": "unbounded number of frames and payload bytes", "anchors": ["src/vortex_frame_factory.c:vortex_frame_get_next", "src/vortex_frame_factory.c:vortex_frame_readline"]}
{"id": "C04", "title": "Decoding does not depend on how the network splits the bytes", "statement": "The sequence of frames obtained from a byte stream is the same for every way the network fragments the stream into reads, and a partially received frame is never delivered.", "quantifier": "every byte stream of valid frames and every fragmentation schedule (including empty reads)", "why_tests_cant": "exponentially many fragmentations; the code keeps resumable state in three different fields", "anchors": ["src/vortex_frame_factory.c:vortex_frame_readline", "src/vortex_frame_factory.c:vortex_frame_receive_raw", "src/vortex_frame_factory.c:vortex_frame_get_next"]}
{"id": "C05", "title": "Only well-formed frames are delivered", "statement": "If the frame reader returns a non-SEQ frame then the bytes read were a recognised keyword, decimal fields, a payload of exactly the announced size and the END CR LF trailer, the channel exists, and the frame fits in the receive window; any other input closes the connection or waits for more data, and never writes outside the receive buffers.", "quantifier": "every byte stream an arbitrary (malicious) peer may send and every connection state", "why_tests_cant": "the input space is all byte strings", "anchors": ["src/vortex_frame_factory.c:vortex_frame_get_next", "src/vortex_frame_factory.c:__vortex_frame_factory_get_header_data", "src/vortex_channel.c:vortex_channel_check_incoming_seqno"]}
{"id": "C06", "title": "Frames never overflow the sequencer's sending buffer", "statement": "When the sequencer serialises a frame of size bytes into its sending buffer, the complete frame (header, payload and trailer) fits in that buffer, for every channel, numbers and size, after any history of buffer growth.", "quantifier": "every frame parameters within protocol ranges, every earlier sequence of frames", "why_tests_cant": "buffer growth depends on the whole history of sizes", "anchors": ["src/vortex_sequencer.c:CHECK_AND_INCREASE_BUFFER", "src/vortex_sequencer.c:vortex_sequencer_build_packet_to_send", "src/vortex_frame_factory.c:vortex_frame_build_up_from_params_s_buffer"]}
{"id": "C07", "title": "A frame is written completely, in order, or the connection fails", "statement": "vortex_frame_send_raw puts on the wire a prefix of the frame, never reordering or repeating bytes; it returns true exactly when the whole frame was written; when it returns false after writing something the connection is no longer usable.", "quantifier": "every frame and every schedule of full, partial, interrupted and failing socket writes", "why_tests_cant": "the schedule of partial writes is chosen by the network", "anchors": ["src/vortex_frame_factory.c:vortex_frame_send_raw"]}
{"id": "C08", "title": "Message segmentation is lossless", "statement": "The frames the sequencer emits for a queued message carry, concatenated, exactly the message; all carry the message's type and number; every frame but the last has the continuation flag and the last does not; sequence numbers are contiguous modulo 2^32 starting at the channel's next sequence number.", "quantifier": "every message, starting sequence number, and every evolution of the remote window while the message is in transit", "why_tests_cant": "message and window history are unbounded", "anchors": ["src/vortex_sequencer.c:vortex_sequencer_build_packet_to_send", "src/vortex_sequencer.c:__vortex_sequencer_do_send_round", "src/vortex_sequencer.c:vortex_sequencer_process_channels", "src/vortex_channel.c:vortex_channel_get_next_frame_size"]}
{"id": "C09", "title": "A sender never exceeds the window advertised by its peer", "statement": "No frame is ever emitted on a channel whose last octet lies beyond the last acknowledgement number plus window advertised by the peer.", "quantifier": "every interleaving of sends and SEQ frames received, every sequence number including those around the 2^32 wrap", "why_tests_cant": "needs every history; wrap-around happens only after 4 GiB", "anchors": ["src/vortex_channel.c:vortex_channel_get_next_frame_size", "src/vortex_channel.c:vortex_channel_get_max_seq_no_remote_accepted", "src/vortex_channel.c:vortex_channel_update_remote_incoming_buffer", "src/vortex_channel.c:vortex_channel_is_stalled"]}
{"id": "C10", "title": "SEQ frames never move the sending window backwards", "statement": "vortex_channel_update_remote_incoming_buffer only accepts updates that move the right edge of the sending window forward, and refuses every other SEQ frame (stale, duplicated or acknowledging beyond the granted window) without touching the window.", "quantifier": "every pair of (current window, received SEQ frame), including wrap-around", "why_tests_cant": "2^96 combinations", "anchors": ["src/vortex_channel.c:vortex_channel_update_remote_incoming_buffer"]}
{"id": "C11", "title": "The receive window check is exact", "statement": "vortex_channel_check_incoming_seqno accepts a frame that starts at the expected sequence number if and only if all of its octets are inside the window the receiver has advertised.", "quantifier": "every consumed sequence number, window, frame sequence number and size", "why_tests_cant": "wrap-around combinations", "anchors": ["src/vortex_channel.c:vortex_channel_check_incoming_seqno"]}
{"id": "C12", "title": "Advertised receive windows only grow", "statement": "Successive SEQ frames emitted for a channel never withdraw octets already granted: the right edge (acknowledgement plus window) never moves backwards, and the acknowledged octets are exactly the octets received.", "quantifier": "every sequence of received frames at every point of the 2^32 sequence space", "why_tests_cant": "history dependent, wrap after 4 GiB", "anchors": ["src/vortex_channel.c:vortex_channel_update_incoming_buffer", "src/vortex_channel.c:vortex_channel_incoming_bytes_available", "src/vortex_reader.c:__vortex_reader_update_incoming_buffer_and_notify"]}
{"id": "C13", "title": "Flow control neither loses frames nor deadlocks", "statement": "Running a sequencer against a receiver over an ordered channel, every frame sent is accepted by the receiver window check, and whenever the sender is stalled with data pending and nothing is in transit, the receiver has already emitted (or will emit on the frames in transit) a SEQ frame that un-stalls it.", "quantifier": "every message list, every interleaving of sender, receiver and the two network directions, unbounded traffic across the 2^32 wrap", "why_tests_cant": "a two-party protocol with unbounded histories", "anchors": ["src/vortex_channel.c:vortex_channel_update_incoming_buffer", "src/vortex_channel.c:vortex_channel_update_remote_incoming_buffer", "src/vortex_channel.c:vortex_channel_get_next_frame_size", "src/vortex_channel.c:vortex_channel_check_incoming_seqno"]}
{"id": "C14", "title": "Changing the channel window size is safe at any time", "statement": "After vortex_channel_set_window_size the receiver still never withdraws granted octets and still eventually advertises new window to a stalled sender, wherever the channel is in the 2^32 sequence space.", "quantifier": "every window size request at every sequence number", "why_tests_cant": "the failing region is a few KiB below the 4 GiB wrap", "anchors": ["src/vortex_channel.c:vortex_channel_set_window_size", "src/vortex_channel.c:vortex_channel_update_incoming_buffer"]}
{"id": "C15", "title": "Outgoing message numbers are unique among unanswered messages", "statement": "Messages sent with vortex_channel_send_msg (from any threads) get message numbers that differ from those of every message still waiting for its reply.", "quantifier": "every interleaving of sends and replies on a channel", "why_tests_cant": "thread schedules and number reuse", "anchors": ["src/vortex_channel.c:vortex_channel_get_next_msg_no", "src/vortex_channel.c:vortex_channel_send_msg_common"]}
{"id": "C16", "title": "A peer cannot reuse a message number that is still unanswered", "statement": "An incoming MSG whose number equals that of a message not replied yet is rejected, and the fragments of one message must not be interleaved with another MSG on the same channel.", "quantifier": "every sequence of received MSG frames and replies", "why_tests_cant": "history dependent", "anchors": ["src/vortex_channel.c:vortex_channel_check_msg_no", "src/vortex_reader.c:__vortex_reader_check_incoming_msgno"]}
{"id": "C17", "title": "Replies leave in the order the messages arrived", "statement": "Whatever the order (and threads) in which the application issues replies, the sequencer receives them in the order in which the messages were received, each reply exactly once, and none is lost.", "quantifier": "every set of received messages and every permutation/interleaving of send_rpy/send_err/ANS/NUL calls", "why_tests_cant": "factorially many orders", "anchors": ["src/vortex_channel.c:__vortex_channel_common_rpy"]}
{"id": "C18", "title": "A reply is accepted only for the oldest unanswered message", "statement": "An incoming RPY, ERR, ANS or NUL is delivered only when its number is that of the oldest message sent and not yet completely answered; otherwise the connection is closed. A final reply retires exactly that message.", "quantifier": "every sequence of sends and received replies", "why_tests_cant": "history dependent", "anchors": ["src/vortex_reader.c:__vortex_reader_process_socket", "src/vortex_channel.c:vortex_channel_get_next_expected_reply_no", "src/vortex_channel.c:vortex_channel_remove_first_outstanding_msg_no"]}
{"id": "C19", "title": "ANS replies are numbered consecutively and terminated by NUL", "statement": "For each one-to-many exchange the ANS frames are numbered 0,1,2,... in the order of the calls, and the NUL comes after all of them.", "quantifier": "every number of answers and every interleaving with other pending messages", "why_tests_cant": "unbounded", "anchors": ["src/vortex_channel.c:__vortex_channel_common_rpy"]}
{"id": "C20", "title": "The outstanding limit is respected", "statement": "With vortex_channel_set_outstanding_limit(n), the number of messages sent and not completely answered never exceeds n.", "quantifier": "every history of sends and replies, including failed sends", "why_tests_cant": "history dependent", "anchors": ["src/vortex_channel.c:vortex_channel_send_msg_common", "src/vortex_channel.c:vortex_channel_set_outstanding_limit"]}
{"id": "C21", "title": "Fragments are reassembled into the original message", "statement": "With the complete flag active, the frame-received handler gets, for every sequence of fragments of one message, exactly one frame whose payload is their concatenation in order, and nothing before the last fragment.", "quantifier": "every fragmentation of every message", "why_tests_cant": "unbounded number of fragments", "anchors": ["src/vortex_reader.c:__vortex_reader_process_socket", "src/vortex_channel.c:vortex_channel_store_previous_frame", "src/vortex_channel.c:vortex_channel_build_single_pending_frame"]}
{"id": "C22", "title": "Fragments of different messages are never merged", "statement": "A delivered reassembled frame is made only of fragments with the same type, message number and answer number.", "quantifier": "every sequence of received frames", "why_tests_cant": "adversarial peer", "anchors": ["src/vortex_reader.c:__vortex_reader_process_socket", "src/vortex_frame_factory.c:vortex_frame_are_joinable"]}
{"id": "C23", "title": "Reassembly memory is bounded by the configured limit", "statement": "With a complete frame limit configured, the bytes stored for a partially received message never exceed the limit; a peer that goes over it gets its connection closed.", "quantifier": "every sequence of fragments", "why_tests_cant": "unbounded sequences", "anchors": ["src/vortex_channel.c:vortex_channel_store_previous_frame"]}
{"id": "C24", "title": "MIME processing never loses body bytes", "statement": "After vortex_frame_mime_process succeeds the MIME header block followed by the body is exactly the received content, and vortex_frame_get_content_size is unchanged; on failure the frame is left as it was received.", "quantifier": "every frame content", "why_tests_cant": "all byte strings", "anchors": ["src/vortex_frame_factory.c:vortex_frame_mime_process", "src/vortex_frame_factory.c:vortex_frame_read_mime_header"]}
{"id": "C25", "title": "MIME header lookup", "statement": "Headers parsed from a message are found by name regardless of letter case, with their value.", "quantifier": "every header block built from valid names and values", "why_tests_cant": "all header lists", "anchors": ["src/vortex_frame_factory.c:vortex_frame_get_mime_header", "src/vortex_frame_factory.c:vortex_frame_set_mime_header"]}
{"id": "C26", "title": "vortex_queue is a FIFO with head insertion", "statement": "Any sequence of vortex_queue operations returns what an ideal double-ended sequence would return.", "quantifier": "every operation sequence", "why_tests_cant": "unbounded histories", "anchors": ["src/vortex_queue.c:vortex_queue_push", "src/vortex_queue.c:vortex_queue_head_push", "src/vortex_queue.c:vortex_queue_pop", "src/vortex_queue.c:vortex_queue_peek"]}
{"id": "C27", "title": "The async queue is FIFO and loses no wake-ups", "statement": "With concurrent pushers and poppers every pushed item is popped exactly once, in push order, and no thread stays blocked in vortex_async_queue_pop while an item is available and no wake-up is pending.", "quantifier": "every number of threads and every interleaving, including spurious wake-ups", "why_tests_cant": "schedules", "anchors": ["src/vortex_thread.c:vortex_async_queue_push", "src/vortex_thread.c:vortex_async_queue_pop", "src/vortex_thread.c:vortex_async_queue_timedpop", "src/vortex_thread.c:vortex_async_queue_priority_push"]}
{"id": "C28", "title": "Unlocked pushes wake every waiter that could proceed", "statement": "After vortex_async_queue_lock / unlocked_push (several times) / unlock, no thread remains blocked while items are available.", "quantifier": "every number of items and waiters", "why_tests_cant": "schedules", "anchors": ["src/vortex_thread.c:vortex_async_queue_unlocked_push", "src/vortex_thread.c:vortex_async_queue_unlock"]}
{"id": "C29", "title": "vortex_hash is a map that destroys each value exactly once", "statement": "Every history of vortex_hash operations behaves like a finite map, and each stored value's destroy function is called exactly once when the value leaves the table other than through delete/lookup_and_clear.", "quantifier": "every operation sequence", "why_tests_cant": "unbounded histories", "anchors": ["src/vortex_hash.c:vortex_hash_insert", "src/vortex_hash.c:vortex_hash_replace_full", "src/vortex_hash.c:vortex_hash_remove", "src/vortex_hash.c:vortex_hash_lookup_and_clear", "src/vortex_hash.c:vortex_hash_delete"]}
{"id": "C30", "title": "vortex_hash_lock_until_changed observes changes", "statement": "A thread blocked in vortex_hash_lock_until_changed is released by any later modification of the table.", "quantifier": "every interleaving of waiters and modifiers", "why_tests_cant": "schedules", "anchors": ["src/vortex_hash.c:vortex_hash_lock_until_changed", "src/vortex_hash.c:__vortex_hash_notify_change"]}
{"id": "C31", "title": "Timed waits use the right deadline", "statement": "vortex_cond_timedwait waits until exactly now plus the requested microseconds, expressed as a normalised timespec.", "quantifier": "every current time and every requested timeout", "why_tests_cant": "one microsecond in a million", "anchors": ["src/vortex_thread.c:vortex_cond_timedwait"]}
{"id": "C32", "title": "Thread pool event stamps are exact", "statement": "The next activation of a thread pool event is exactly the configured delay after the current activation, as a normalised timeval.", "quantifier": "every time stamp and delay", "why_tests_cant": "one microsecond in a million", "anchors": ["src/vortex_thread_pool.c:__vortex_thread_pool_increase_stamp"]}
{"id": "C33", "title": "The thread pool size stays within its limits", "statement": "Automatic resizing never takes the pool over the configured maximum, and removing threads never leaves the pool without threads.", "quantifier": "every sequence of add, remove and resize operations and every schedule", "why_tests_cant": "schedules and parameter combinations", "anchors": ["src/vortex_thread_pool.c:__vortex_thread_pool_automatic_resize", "src/vortex_thread_pool.c:vortex_thread_pool_remove_internal", "src/vortex_thread_pool.c:vortex_thread_pool_add_internal"]}
{"id": "C34", "title": "Each task is executed exactly once", "statement": "Tasks submitted with vortex_thread_pool_new_task before the pool is stopped are executed exactly once by some thread, taken in submission order, even while threads are added and removed.", "quantifier": "every schedule of submitters, workers, and resize operations", "why_tests_cant": "schedules", "anchors": ["src/vortex_thread_pool.c:vortex_thread_pool_new_task", "src/vortex_thread_pool.c:__vortex_thread_pool_dispatcher"]}
{"id": "C35", "title": "A channel pool hands a channel to one user at a time", "statement": "Between vortex_channel_pool_get_next_ready returning a channel and vortex_channel_pool_release_channel, no other thread is given the same channel.", "quantifier": "every interleaving of threads", "why_tests_cant": "schedules", "anchors": ["src/vortex_channel_pool.c:vortex_channel_pool_get_next_ready_full", "src/vortex_channel_pool.c:vortex_channel_pool_release_channel"]}
{"id": "C36", "title": "Fresh channel numbers", "statement": "vortex_connection_get_next_channel returns a positive channel number that is not in use, odd on the initiator and even on the listener side, and never hands the same number twice to concurrent callers.", "quantifier": "every set of open channels and every history", "why_tests_cant": "2^31 numbers and wrap-around", "anchors": ["src/vortex_connection.c:vortex_connection_get_next_channel"]}
{"id": "C37", "title": "Connection ids are unique and increasing", "statement": "Every connection created in a context gets a different id.", "quantifier": "every number of connections and threads", "why_tests_cant": "schedules and counter overflow", "anchors": ["src/vortex_connection.c:__vortex_connection_get_next_id"]}
{"id": "C38", "title": "Channel errors are reported once, most recent first", "statement": "vortex_connection_pop_channel_error returns each pushed error exactly once, in LIFO order.", "quantifier": "every history of pushes and pops", "why_tests_cant": "unbounded histories", "anchors": ["src/vortex_connection.c:vortex_connection_push_channel_error", "src/vortex_connection.c:vortex_connection_pop_channel_error"]}
{"id": "C39", "title": "On-close handlers run exactly once", "statement": "Each on-close handler installed before the connection is closed and not removed is invoked exactly once when the connection is closed, in list order, however many threads close or shut down the connection; a removed handler is not invoked.", "quantifier": "every interleaving of install, remove and close from any number of threads", "why_tests_cant": "schedules", "anchors": ["src/vortex_connection.c:__vortex_connection_set_not_connected", "src/vortex_connection.c:__vortex_connection_invoke_on_close", "src/vortex_connection.c:vortex_connection_set_on_close_full2", "src/vortex_connection.c:vortex_connection_remove_on_close_full"]}
{"id": "C40", "title": "Serialised delivery is in order", "statement": "With vortex_channel_set_serialize, frames are handed to the frame-received handler in the order they arrived, each exactly once, whatever order the pool threads run in.", "quantifier": "every list of frames and every schedule of pool threads", "why_tests_cant": "factorially many schedules", "anchors": ["src/vortex_channel.c:vortex_channel_check_serialize", "src/vortex_channel.c:vortex_channel_check_serialize_pending", "src/vortex_channel.c:vortex_channel_invoke_received_handler"]}
{"id": "C41", "title": "Waiting for a reply to be sent always terminates", "statement": "vortex_channel_wait_until_sent returns once the reply has been sent or the connection has been closed.", "quantifier": "every interleaving of reply transmission and connection close", "why_tests_cant": "schedules", "anchors": ["src/vortex_channel.c:vortex_channel_wait_until_sent", "src/vortex_channel.c:__vortex_channel_signal_rpy_sent"]}
{"id": "C42", "title": "Waiting for a reply delivers the matching reply", "statement": "vortex_channel_wait_reply returns the reply to the message it waits for, each reply being delivered to exactly one of the waiters or handlers.", "quantifier": "every interleaving of replies, waiters and timeouts", "why_tests_cant": "schedules", "anchors": ["src/vortex_channel.c:vortex_channel_wait_reply", "src/vortex_channel.c:vortex_channel_invoke_received_handler"]}
{"id": "C43", "title": "Reference counts free objects exactly once", "statement": "For any balanced use of ref/unref by any number of threads, a channel or connection is released exactly once, after the last reference is dropped, and never used afterwards.", "quantifier": "every interleaving of balanced ref/unref", "why_tests_cant": "schedules", "anchors": ["src/vortex_channel.c:vortex_channel_ref2", "src/vortex_channel.c:vortex_channel_unref2", "src/vortex_connection.c:vortex_connection_ref_internal", "src/vortex_connection.c:vortex_connection_unref"]}
{"id": "C44", "title": "A file feeder transmits the file", "statement": "The bytes produced by a file payload feeder are the MIME separator (if requested) followed by the file content, each exactly once and in order, whatever sizes are requested; pausing does not lose bytes.", "quantifier": "every file content and every sequence of requested sizes", "why_tests_cant": "unbounded", "anchors": ["src/vortex_payload_feeder.c:vortex_payload_feeder_file", "src/vortex_payload_feeder.c:vortex_payload_feeder_get_content"]}
{"id": "C45", "title": "Search path lookup", "statement": "vortex_support_domain_find_data_file returns a file only from the paths added to the domain, in the order they were added.", "quantifier": "every configuration of domains and paths", "why_tests_cant": "all configurations", "anchors": ["src/vortex_support.c:vortex_support_add_domain_search_path_ref", "src/vortex_support.c:vortex_support_domain_find_data_file"]}
{"id": "C46", "title": "Time interval subtraction", "statement": "vortex_timeval_substract returns the exact normalised difference and reports whether it is negative.", "quantifier": "every pair of times", "why_tests_cant": "all pairs", "anchors": ["src/vortex_support.c:vortex_timeval_substract"]}
{"id": "C47", "title": "The server name is bound once", "statement": "The server name of a connection is fixed by the first channel start that provides it and never changes later; any port suffix is removed.", "quantifier": "every sequence of set_server_name calls", "why_tests_cant": "unbounded histories", "anchors": ["src/vortex_connection.c:vortex_connection_set_server_name"]}
{"id": "C48", "title": "Each start request gets exactly one answer", "statement": "For every start request received on channel 0 exactly one reply (profile or error) is issued or the decision is deferred to the application, the channel exists afterwards iff it was accepted, and requests for a busy number or an unregistered or filtered profile are refused.", "quantifier": "every request and every configuration of profiles, masks and handlers", "why_tests_cant": "configuration space", "anchors": ["src/vortex_channel.c:vortex_channel_0_frame_received_start_msg", "src/vortex_channel.c:__vortex_channel_0_frame_received_handle_start_msg_reply"]}
{"id": "C49", "title": "Each close request gets exactly one answer", "statement": "For every close request exactly one ok or error reply is issued (or the decision is deferred), and a channel is removed only if it was accepted.", "quantifier": "every request and every configuration of handlers, including simultaneous close", "why_tests_cant": "configuration space", "anchors": ["src/vortex_channel.c:vortex_channel_0_frame_received_close_msg"]}
{"id": "C50", "title": "Piggybacked content is delivered once", "statement": "The piggyback content of a channel start is delivered at most once.", "quantifier": "every history of piggyback calls", "why_tests_cant": "histories", "anchors": ["src/vortex_channel.c:vortex_channel_get_piggyback"]}
{"id": "C51", "title": "Profile masks are conjunctive", "statement": "A profile is filtered iff at least one installed mask filters it, and the error code and message are those of that mask.", "quantifier": "every list of masks", "why_tests_cant": "configuration space", "anchors": ["src/vortex_connection.c:vortex_connection_is_profile_filtered"]}
{"id": "C52", "title": "Connection actions run in order until one stops them", "statement": "vortex_connection_actions_notify runs the installed actions in order, stops at the first that rejects or ends processing, and continues with the connection returned by a replacing action.", "quantifier": "every list of actions and return codes", "why_tests_cant": "configuration space", "anchors": ["src/vortex_connection.c:vortex_connection_actions_notify"]}
{"id": "C53", "title": "Integer formatting", "statement": "vortex_support_itoa writes the decimal representation of its argument and never writes outside the buffer it is given.", "quantifier": "every unsigned int and every buffer size", "why_tests_cant": "2^32 inputs", "anchors": ["src/vortex_support.c:vortex_support_itoa"]}
{"id": "C54", "title": "Acknowledgements of octets never sent are refused", "statement": "A SEQ frame acknowledging octets this side has not sent yet on the channel is refused.", "quantifier": "every sending state and every SEQ frame", "why_tests_cant": "adversarial peer", "anchors": ["src/vortex_channel.c:vortex_channel_update_remote_incoming_buffer", "src/vortex_reader.c:__vortex_reader_process_socket"]}
{"id": "C55", "title": "A queued message is never forgotten by the sequencer", "statement": "Whenever a channel has pending messages and its window is not exhausted, the channel is among those the sequencer will serve (or a wake up is on its way).", "quantifier": "every interleaving of senders, the reader and the sequencer", "why_tests_cant": "thread schedules", "anchors": ["src/vortex_sequencer.c:vortex_sequencer_queue_data", "src/vortex_sequencer.c:__vortex_sequencer_add_channel", "src/vortex_sequencer.c:vortex_sequencer_signal_update", "src/vortex_sequencer.c:vortex_sequencer_run"]}
{"id": "C56", "title": "The reply reported as sent is the one that was sent", "statement": "When the sequencer finishes a reply (RPY or NUL) the message number it reports to threads waiting for replies to be sent (vortex_channel_wait_until_sent, channel close) is the number of that reply.", "quantifier": "every list of queued messages and every schedule", "why_tests_cant": "interaction of frame types with the round", "anchors": ["src/vortex_sequencer.c:vortex_sequencer_direct_send", "src/vortex_sequencer.c:vortex_sequencer_build_packet_to_send"]}
{"id": "C57", "title": "The sequencer does not spin with nothing to send", "statement": "A channel in the ready set of the sequencer has a message to send, so that the sequencer thread blocks when there is nothing to do.", "quantifier": "every interleaving of senders, the reader and the sequencer", "why_tests_cant": "thread schedules", "anchors": ["src/vortex_sequencer.c:vortex_sequencer_signal_update", "src/vortex_sequencer.c:vortex_sequencer_process_channels"]}
{"id": "C58", "title": "A message sent in pieces can always be completed", "statement": "With an outstanding limit configured, a message started with vortex_channel_send_msg_more can be finished with vortex_channel_send_msg.", "quantifier": "every limit and every history", "why_tests_cant": "interaction of two features", "anchors": ["src/vortex_channel.c:vortex_channel_send_msg_common"]}
{"id": "C59", "title": "A sender blocked at the outstanding limit is released when the connection is lost", "statement": "A thread blocked in vortex_channel_send_msg because of the outstanding limit returns (with an error) when the connection is closed.", "quantifier": "every interleaving of senders, replies and connection close", "why_tests_cant": "thread schedules", "anchors": ["src/vortex_channel.c:vortex_channel_send_msg_common", "src/vortex_connection.c:__vortex_connection_set_not_connected"]}
{"id": "C60", "title": "A reply to a message already answered is refused", "statement": "A reply is only sent to the message the application replied to; replying twice to a message fails and never answers a later message that has the same number.", "quantifier": "every sequence of messages and replies", "why_tests_cant": "long histories", "anchors": ["src/vortex_channel.c:__vortex_channel_common_rpy"]}
{"id": "C61", "title": "Message contents cannot make the reader leave the memory of a frame", "statement": "Whatever a peer sends as content, in one frame or in several, joining the frames and recognising MIME headers only reads memory that belongs to them.", "quantifier": "every content, every cut in frames", "why_tests_cant": "memory errors depend on what lies after the block", "anchors": ["src/vortex_reader.c:__vortex_reader_process_socket", "src/vortex_channel.c:vortex_channel_build_single_pending_frame", "src/vortex_frame_factory.c:vortex_frame_mime_process", "src/vortex_frame_factory.c:vortex_frame_read_mime_header"]}
{"id": "C62", "title": "Destroy functions run with the table unlocked", "statement": "The destroy functions of a vortex_hash are called without the lock of the table held, so that they can use the table.", "quantifier": "every operation and every history", "why_tests_cant": "deadlocks only seen with particular destroy functions", "anchors": ["src/vortex_hash.c:vortex_hash_insert", "src/vortex_hash.c:vortex_hash_remove", "src/vortex_hash.c:vortex_hash_clear"]}
{"id": "C63", "title": "Stopping the thread pool ends its threads", "statement": "After vortex_thread_pool_exit has sent its beacons, all the threads of the pool come to an end, even if some of them were being removed or are busy; no beacon is taken for a task.", "quantifier": "every schedule of submitters, workers, resize operations and exit", "why_tests_cant": "schedules", "anchors": ["src/vortex_thread_pool.c:vortex_thread_pool_exit", "src/vortex_thread_pool.c:__vortex_thread_pool_dispatcher"]}
{"id": "C64", "title": "Automatic resizes keep their period", "statement": "The pool is resized automatically only after vortex_thread_pool_setup, no sooner after the last change than the period configured, and by no more threads than configured.", "quantifier": "every history and every clock", "why_tests_cant": "unbounded histories, time", "anchors": ["src/vortex_thread_pool.c:__vortex_thread_pool_automatic_resize", "src/vortex_thread_pool.c:vortex_thread_pool_setup2"]}
{"id": "C65", "title": "Pool events are called when their time comes, one at a time", "statement": "A handler installed with vortex_thread_pool_new_event is called for the k-th time no sooner than k times its delay after it was installed; two handlers are never running at the same time; each time the pool looks at its events it calls exactly those whose time has come.", "quantifier": "every history of events installed, removed and called, every schedule and clock", "why_tests_cant": "schedules and time", "anchors": ["src/vortex_thread_pool.c:__vortex_thread_pool_process_events", "src/vortex_thread_pool.c:vortex_thread_pool_new_event"]}
{"id": "C66", "title": "Removed pool events are not called again", "statement": "An event is not called after its handler has returned axl_true or after vortex_thread_pool_remove_event has returned axl_true for it; the identifier returned by vortex_thread_pool_new_event stands for that event.", "quantifier": "every schedule and every address of the blocks", "why_tests_cant": "schedules, addresses over 2^32", "anchors": ["src/vortex_thread_pool.c:vortex_thread_pool_remove_event", "src/vortex_thread_pool.c:__vortex_thread_pool_process_events"]}
{"id": "C67", "title": "Pool events are released exactly once", "statement": "The block of an event is released when it is neither in the list nor being called, and never used afterwards, even if it is removed while its handler runs.", "quantifier": "every schedule", "why_tests_cant": "schedules", "anchors": ["src/vortex_thread_pool.c:__vortex_thread_pool_unref_event", "src/vortex_thread_pool.c:__vortex_thread_pool_process_events"]}
{"id": "C68", "title": "Channel pools have different identifiers", "statement": "The identifiers that vortex_connection_next_channel_pool_id gives to the pools of a connection, by which vortex_connection_get_channel_pool finds them, are different for different pools.", "quantifier": "every interleaving of threads creating pools", "why_tests_cant": "schedules", "anchors": ["src/vortex_connection.c:vortex_connection_next_channel_pool_id"]}
{"id": "C69", "title": "A channel is found by its number until it is closed", "statement": "A channel whose creation succeeded is returned by vortex_connection_get_channel for its number until it is closed, and no two channels of a connection have the same number, whatever other threads create or see refused at the same time.", "quantifier": "every interleaving of threads creating and closing channels, with numbers chosen by the library, the user or the peer", "why_tests_cant": "schedules", "anchors": ["src/vortex_connection.c:vortex_connection_add_channel_common", "src/vortex_connection.c:vortex_connection_remove_channel_common", "src/vortex_channel.c:__vortex_channel_new", "src/vortex_channel.c:__vortex_channel_validate_start_reply"]}
{"id": "C70", "title": "Changing the handler that chooses the size of frames", "statement": "The functions that set a VortexChannelFrameSize handler return the handler that was set before, and a handler is always called with the user data given with it.", "quantifier": "every sequence of changes and every interleaving with the sequencer", "why_tests_cant": "schedules", "anchors": ["src/vortex_connection.c:vortex_connection_set_next_frame_size_handler", "src/vortex_connection.c:vortex_connection_set_default_next_frame_size_handler", "src/vortex_channel.c:vortex_channel_set_next_frame_size_handler"]}
{"id": "C72", "title": "A close handler installed on a closed connection is called", "statement": "A close handler installed when the connection is already closed is called, so that whoever installs one is always told that the connection is closed.", "quantifier": "every history of installs and closes", "why_tests_cant": "schedules", "anchors": ["src/vortex_connection.c:vortex_connection_set_on_close_full2", "src/vortex_connection.c:__vortex_connection_set_not_connected"]}
{"id": "C71", "title": "A channel is created only if the peer confirms the requested profile", "statement": "vortex_channel_new returns a channel if and only if the reply of the peer to the start request is a confirmation (RPY) of the profile that was asked for; the content that came with the confirmation is available on the channel, and the error given by the peer is reported otherwise.", "quantifier": "every sequence and every interleaving of replies validated by one context, for every content of the replies", "why_tests_cant": "the replies already seen by the context, on any connection, change how the next one is read", "anchors": ["src/vortex_channel.c:__vortex_channel_validate_start_reply", "src/vortex_channel.c:__vortex_channel_new"]}
{"id": "C73", "title": "A channel whose close is refused keeps working", "statement": "When vortex_channel_close returns FALSE because the peer refused, the channel can still send messages and be closed later by either side.", "quantifier": "every execution after a refused close", "why_tests_cant": "all later executions", "anchors": ["src/vortex_channel.c:__vortex_channel_close", "src/vortex_channel.c:__vortex_channel_close_full", "src/vortex_channel.c:vortex_channel_0_frame_received_close_msg"]}
{"id": "C74", "title": "vortex_channel_close returns TRUE only if the close was agreed", "statement": "vortex_channel_close returns TRUE only if the peer accepted the close, this side accepted a close request of the peer or the connection is closed, and FALSE only if the peer answered something else.", "quantifier": "every execution of the calls, the requests of the peer and its answers", "why_tests_cant": "schedules and answers of the peer", "anchors": ["src/vortex_channel.c:__vortex_channel_close", "src/vortex_channel.c:__vortex_channel_close_full", "src/vortex_channel.c:vortex_channel_wait_reply"]}
{"id": "C75", "title": "Closes that cross close the channel on both sides", "statement": "When both sides close a channel at the same time both calls succeed and the channel is removed on both sides.", "quantifier": "every interleaving of the call to vortex_channel_close with the request of the peer", "why_tests_cant": "races between two threads", "anchors": ["src/vortex_channel.c:__vortex_channel_close", "src/vortex_channel.c:vortex_channel_0_frame_received_close_msg"]}
{"id": "C76", "title": "A channel is removed only for a reason", "statement": "In every execution a channel leaves the table only if this side answered a close request of the peer with ok, the peer answered our close message with ok or with a frame that is neither RPY nor ERR, the wait for that answer timed out, or the connection is closed.", "quantifier": "every execution, including simultaneous closes, deferred decisions and a misbehaving peer", "why_tests_cant": "all executions", "anchors": ["src/vortex_channel.c:vortex_channel_0_frame_received_close_msg", "src/vortex_channel.c:vortex_channel_notify_close", "src/vortex_channel.c:__vortex_channel_close"]}
{"id": "C77", "title": "Queues, hashes, contexts and feeders are released exactly once", "statement": "For any balanced use of the ref and unref functions of queues between threads, hash tables, contexts and payload feeders by any number of threads, nobody who owns a reference is refused another, the object is released exactly once when nobody owns a reference, and never used afterwards.", "quantifier": "every number of threads and every interleaving of balanced calls", "why_tests_cant": "schedules", "anchors": ["src/vortex_thread.c:vortex_async_queue_ref", "src/vortex_thread.c:vortex_async_queue_unref", "src/vortex_hash.c:vortex_hash_ref", "src/vortex_hash.c:vortex_hash_destroy", "src/vortex_ctx.c:vortex_ctx_ref2", "src/vortex_ctx.c:vortex_ctx_unref2", "src/vortex_payload_feeder.c:vortex_payload_feeder_ref", "src/vortex_payload_feeder.c:vortex_payload_feeder_free"]}
{"id": "C78", "title": "Frames are released exactly once", "statement": "For any balanced use of vortex_frame_ref and vortex_frame_unref by any number of threads, a frame is released exactly once, when nobody owns a reference, and never used afterwards.", "quantifier": "every number of threads and every interleaving of balanced calls", "why_tests_cant": "schedules", "anchors": ["src/vortex_frame_factory.c:vortex_frame_ref", "src/vortex_frame_factory.c:vortex_frame_unref"]}
{"id": "C79", "title": "vortex_ctx_unref clears the pointer of the caller that released the context", "statement": "vortex_ctx_unref sets the pointer of the caller to NULL if and only if the call released the context.", "quantifier": "every interleaving of balanced calls", "why_tests_cant": "schedules", "anchors": ["src/vortex_ctx.c:vortex_ctx_unref2", "src/vortex_ctx.c:vortex_ctx_free2"]}
{"id": "C80", "title": "The answer of a call for a reference can be relied upon", "statement": "When vortex_channel_ref, vortex_connection_uncheck_ref, vortex_async_queue_ref or vortex_payload_feeder_ref returns TRUE the object is not released until the caller drops the reference, and when it returns FALSE the counter was not increased, also for a caller that did not own a reference.", "quantifier": "every interleaving with the calls of other threads", "why_tests_cant": "schedules", "anchors": ["src/vortex_channel.c:vortex_channel_ref2", "src/vortex_connection.c:vortex_connection_ref_internal", "src/vortex_thread.c:vortex_async_queue_ref", "src/vortex_payload_feeder.c:vortex_payload_feeder_ref"]}
{"id": "C81", "title": "A thread that waits for a reply gets the reply to its message", "statement": "vortex_channel_wait_reply returns only a frame the peer sent as a reply to the message the caller sent.", "quantifier": "every interleaving of the thread that creates the channel with threads that wait", "why_tests_cant": "races", "anchors": ["src/vortex_channel.c:vortex_channel_set_piggyback", "src/vortex_channel.c:vortex_channel_invoke_received_handler"]}
{"id": "C82", "title": "A path can be added to any domain", "statement": "After vortex_support_add_domain_search_path files of the path are found in lookups of the domain.", "quantifier": "every sequence of calls", "why_tests_cant": "configurations", "anchors": ["src/vortex_support.c:vortex_support_add_domain_search_path_ref", "src/vortex_support.c:vortex_support_domain_find_data_file"]}
{"id": "C83", "title": "What is delivered is a beginning of what was sent", "statement": "However the network splits and delays the octets of well formed frames that fit in their windows, the frames delivered are, unchanged and in order, the first ones sent; all of them are delivered unless the connection is closed.", "quantifier": "every sequence of frames and every sequence of results of the reads of the socket", "why_tests_cant": "every fragmentation and timing of the octets", "anchors": ["src/vortex_frame_factory.c:vortex_frame_readline", "src/vortex_frame_factory.c:vortex_frame_receive_raw", "src/vortex_frame_factory.c:vortex_frame_get_next"]}
{"id": "C84", "title": "A frame reported as written was written", "statement": "When the write of a frame succeeds all its octets are on the wire and the connection is not closed by it; when it fails only a beginning of them is.", "quantifier": "every frame and every behaviour of the socket", "why_tests_cant": "partial writes, errors and timeouts in any order", "anchors": ["src/vortex_frame_factory.c:vortex_frame_send_raw"]}
{"id": "C85", "title": "Recognising the MIME headers of a frame", "statement": "For every content received in one frame MIME processing ends, reads only the memory of the frame, keeps the content, and gives as payload the body exactly when the content is a MIME entity, and the whole content otherwise.", "quantifier": "every content", "why_tests_cant": "all contents", "anchors": ["src/vortex_frame_factory.c:vortex_frame_mime_process", "src/vortex_frame_factory.c:vortex_frame_read_mime_header"]}
{"id": "C86", "title": "Headers of MIME messages", "statement": "A header not among the five usual ones is found, whatever the case of its name, with all its values in order; of a usual one the last value is found; headers that are not there are not found; the content type is application/octet-stream if the message does not give it.", "quantifier": "every MIME entity and every name", "why_tests_cant": "all contents", "anchors": ["src/vortex_frame_factory.c:vortex_frame_get_mime_header", "src/vortex_frame_factory.c:vortex_frame_set_mime_header"]}
{"id": "C87", "title": "Tasks of the pool start in order and at most once", "statement": "The threads of the pool take tasks in the order in which they were submitted, no task is executed twice and no task is executed and dropped; no schedule makes the pool do anything undefined.", "quantifier": "every schedule of submitters, workers, resize operations and exit", "why_tests_cant": "schedules", "anchors": ["src/vortex_thread_pool.c:vortex_thread_pool_new_task", "src/vortex_thread_pool.c:__vortex_thread_pool_dispatcher"]}
{"id": "C88", "title": "Numbers chosen for channels are of the right side and not in use", "statement": "While the connection is open vortex_connection_get_next_channel gives positive numbers, odd for the initiator and even for the listener, that no channel of the connection has; a listener never gives a number twice, and an initiator only after all others were given or found in use.", "quantifier": "every interleaving of threads that create and close channels", "why_tests_cant": "unbounded histories, wrap of the counter", "anchors": ["src/vortex_connection.c:vortex_connection_get_next_channel"]}
{"id": "C89", "title": "A free channel number is found", "statement": "If the initiator of an open connection has some number free, vortex_connection_get_next_channel returns a number, with no lock held.", "quantifier": "every set of channels in use", "why_tests_cant": "2^30 channels", "anchors": ["src/vortex_connection.c:vortex_connection_get_next_channel"]}
{"id": "C90", "title": "A thread that waits for a reply gets a frame given to it, and keeps it", "statement": "vortex_channel_wait_reply returns only frames given to its wait object, returns one unless the connection is closed or the time is over, and nothing that happens later takes the frame from it.", "quantifier": "every schedule of the reader, the close of the connection and the thread that waits", "why_tests_cant": "schedules", "anchors": ["src/vortex_channel.c:vortex_channel_wait_reply", "src/vortex_channel.c:vortex_channel_invoke_received_handler"]}
{"id": "C91", "title": "Differences of normalised times are exact", "statement": "vortex_timeval_substract gives the exact difference of two normalised times, normalised, and says whether it is negative.", "quantifier": "all pairs of times", "why_tests_cant": "all pairs", "anchors": ["src/vortex_support.c:vortex_timeval_substract"]}
{"id": "C92", "title": "A number in use is never started again", "statement": "A request of the peer to start channel 0 or a channel that exists is answered with an error and leaves the channels as they are.", "quantifier": "every state of the connection", "why_tests_cant": "all states", "anchors": ["src/vortex_channel.c:vortex_channel_0_frame_received_start_msg", "src/vortex_channel.c:__vortex_channel_0_frame_received_handle_start_msg_reply"]}
{"id": "C93", "title": "A profile is filtered when some mask filters it", "statement": "vortex_connection_is_profile_filtered returns axl_true exactly if some of the masks installed filters the profile; masks are called in order, none after one that filters.", "quantifier": "every list of masks, also if masks install masks", "why_tests_cant": "handlers that change the list", "anchors": ["src/vortex_connection.c:vortex_connection_is_profile_filtered"]}
{"id": "C94", "title": "Handlers of pool events do not overlap and end when they say so", "statement": "No two handlers of pool events run at the same time, and no event is called after its handler returned axl_true.", "quantifier": "every schedule", "why_tests_cant": "schedules", "anchors": ["src/vortex_thread_pool.c:__vortex_thread_pool_process_events", "src/vortex_thread_pool.c:vortex_thread_pool_new_event"]}
{"id": "C95", "title": "Numbers of channels are unique", "statement": "A connection never has two channels with the same number.", "quantifier": "every interleaving of threads that create and close channels", "why_tests_cant": "schedules", "anchors": ["src/vortex_connection.c:vortex_connection_add_channel_common", "src/vortex_connection.c:vortex_connection_remove_channel_common", "src/vortex_channel.c:__vortex_channel_new", "src/vortex_channel.c:__vortex_channel_validate_start_reply"]}
{"id": "C96", "title": "A file feeder gives the file", "statement": "Whatever sizes are asked for, the chunks of a file feeder are a beginning of the file (after the MIME separator if asked for), all of it when the feeder says it is finished; each request gives an octet or finishes; the finish handler is called once.", "quantifier": "every file and every sequence of sizes", "why_tests_cant": "all sequences", "anchors": ["src/vortex_payload_feeder.c:vortex_payload_feeder_file", "src/vortex_payload_feeder.c:vortex_payload_feeder_get_content"]}
{"id": "C97", "title": "Memory kept for incomplete messages is bounded", "statement": "With a limit set, while the connection is open the frames kept for an incomplete message are never larger than the limit; the limit is the larger of the last ones given to the channel and to the connection, and a fragment closes the connection exactly if it does not fit.", "quantifier": "every sequence of frames and limits", "why_tests_cant": "unbounded sequences", "anchors": ["src/vortex_channel.c:vortex_channel_store_previous_frame"]}
{"id": "C98", "title": "Frames kept for reassembly belong together", "statement": "The frames kept for an incomplete message all belong to the same message and follow each other without gaps; a frame out of its place in the channel or out of its window is not delivered and closes the connection.", "quantifier": "every sequence of frames a peer can send", "why_tests_cant": "all sequences", "anchors": ["src/vortex_reader.c:__vortex_reader_process_socket", "src/vortex_frame_factory.c:vortex_frame_are_joinable"]}
{"id": "C99", "title": "A call to reply ends", "statement": "A call to send a reply returns, whatever replies have been stored before.", "quantifier": "every history of messages and replies", "why_tests_cant": "unbounded histories", "anchors": ["src/vortex_channel.c:__vortex_channel_common_rpy"]}
{"id": "C100", "title": "Windows advertised only grow", "statement": "While the connection is open and the window is not resized, each SEQ frame sent acknowledges octets that were received and grants strictly more than the one before, anywhere in the sequence space.", "quantifier": "every sequence of frames and wrap of the sequence numbers", "why_tests_cant": "more than 2^32 octets", "anchors": ["src/vortex_channel.c:vortex_channel_update_incoming_buffer", "src/vortex_channel.c:vortex_channel_incoming_bytes_available", "src/vortex_reader.c:__vortex_reader_update_incoming_buffer_and_notify"]}
{"id": "C101", "title": "With the complete flag off each frame is delivered as it came", "statement": "With vortex_channel_set_complete_flag off every frame received is delivered once, unchanged and in order.", "quantifier": "every sequence of frames", "why_tests_cant": "all sequences", "anchors": ["src/vortex_reader.c:__vortex_reader_process_socket", "src/vortex_channel.c:vortex_channel_store_previous_frame", "src/vortex_channel.c:vortex_channel_build_single_pending_frame"]}
{"id": "C102", "title": "One-to-many replies are numbered from 0", "statement": "As long as the application sends nothing after the NUL of a message, the ANS frames of each message are numbered 0, 1, 2, ... with nothing in between and the NUL comes right after them.", "quantifier": "every order of messages and replies", "why_tests_cant": "unbounded histories", "anchors": ["src/vortex_channel.c:__vortex_channel_common_rpy"]}
{"id": "C103", "title": "Threads added to the pool", "statement": "vortex_thread_pool_add adds as many threads as were asked for and could be created, no more.", "quantifier": "every number and every number of failures", "why_tests_cant": "failures of thread creation", "anchors": ["src/vortex_thread_pool.c:__vortex_thread_pool_automatic_resize", "src/vortex_thread_pool.c:vortex_thread_pool_remove_internal", "src/vortex_thread_pool.c:vortex_thread_pool_add_internal"]}
{"id": "C104", "title": "Identifiers of connections are unique and increase", "statement": "The identifiers given to connections by a context are different and increase, as long as the counter does not overflow.", "quantifier": "every number of connections", "why_tests_cant": "2^31 connections", "anchors": ["src/vortex_connection.c:__vortex_connection_get_next_id"]}
{"id": "C105", "title": "A ready channel of a pool is handed out", "statement": "A call that is not disturbed gets the first channel of the pool that is ready and not in use, and a channel released is eligible again.", "quantifier": "every state of the pool", "why_tests_cant": "all states", "anchors": ["src/vortex_channel_pool.c:vortex_channel_pool_get_next_ready_full", "src/vortex_channel_pool.c:vortex_channel_pool_release_channel"]}
{"id": "C106", "title": "The pieces of a message share its number", "statement": "The pieces of a message sent with vortex_channel_send_msg_more have the number of its first piece.", "quantifier": "every history of sends and replies", "why_tests_cant": "unbounded histories", "anchors": ["src/vortex_channel.c:vortex_channel_get_next_msg_no", "src/vortex_channel.c:vortex_channel_send_msg_common"]}
{"id": "C107", "title": "Messages carry the MIME headers of their profile", "statement": "A message or reply sent on a channel, in one piece or several, is a MIME entity whose Content-Type and Content-Transfer-Encoding are those given with vortex_profiles_set_mime_type before the channel was created (the defaults of BEEP left out) and whose body is the message asked for; no memory outside the message is written.", "quantifier": "every MIME type, transfer encoding, message and sequence of calls", "why_tests_cant": "every combination of types, encodings and messages; memory errors that corrupt silently", "anchors": ["src/vortex_channel.c:__vortex_channel_get_mime_headers", "src/vortex_channel.c:__vortex_channel_get_mime_headers_size", "src/vortex_channel.c:vortex_channel_send_msg_common", "src/vortex_profiles.c:vortex_profiles_set_mime_type"]}
{"id": "C108", "title": "The MIME type of a profile can be changed while it is used", "statement": "vortex_profiles_set_mime_type and vortex_profiles_unregister do not disturb the channels of the profile that exist: they keep sending with the type and encoding they had.", "quantifier": "every sequence of calls", "why_tests_cant": "use of freed memory usually goes unnoticed", "anchors": ["src/vortex_profiles.c:vortex_profiles_set_mime_type", "src/vortex_profiles.c:vortex_profiles_unregister", "src/vortex_channel.c:vortex_channel_empty_new"]}
{"id": "C109", "title": "The level that decides whether MIME headers are added", "statement": "For a message that does not continue another, the first of channel, profile and library that is configured decides whether MIME headers are added, and they are if none is; the decision stays with the channel until vortex_channel_set_automatic_mime is called.", "quantifier": "every sequence of configurations and messages", "why_tests_cant": "all orders of configuration", "anchors": ["src/vortex_channel.c:__vortex_channel_get_mime_headers_size", "src/vortex_channel.c:vortex_channel_set_automatic_mime", "src/vortex_profiles.c:vortex_profiles_set_automatic_mime"]}
{"id": "C110", "title": "The pieces of a message have the MIME headers once", "statement": "The pieces after the first of a message sent with vortex_channel_send_msg_more, or of a reply sent with vortex_channel_send_rpy_more, carry exactly what was asked, also if other messages and replies are sent in between.", "quantifier": "every interleaving of pieces of messages and replies", "why_tests_cant": "unbounded interleavings", "anchors": ["src/vortex_channel.c:__vortex_channel_skip_mime_headers", "src/vortex_channel.c:vortex_channel_send_msg_common"]}
{"id": "C111", "title": "A one-to-many reply can always be ended", "statement": "The NUL frame sent by vortex_channel_finalize_ans_rpy is accepted by the peer, whatever the room left in its window and the MIME headers of the profile.", "quantifier": "every window and configuration", "why_tests_cant": "every alignment of the window", "anchors": ["src/vortex_channel.c:vortex_channel_finalize_ans_rpy", "src/vortex_reader.c:__vortex_reader_process_socket_check_nul_frame", "src/vortex_sequencer.c:vortex_sequencer_build_packet_to_send"]}
{"id": "C112", "title": "The peer gets the message and its MIME type", "statement": "If no transfer encoding is configured, the types are printable and the profile is not changed while it has channels, nothing undefined happens, and for each message sent with headers the peer finds exactly the message as payload and the configured type as content type, also if it was put together from fragments.", "quantifier": "every sequence of calls, every message and every type", "why_tests_cant": "all messages", "anchors": ["src/vortex_channel.c:__vortex_channel_get_mime_headers", "src/vortex_frame_factory.c:vortex_frame_mime_process", "src/vortex_frame_factory.c:vortex_frame_get_content_type"]}
{"id": "C113", "title": "The greetings announce what is configured", "statement": "The greetings message built for a connection announces the configured features and languages and, in order of registration, the registered profiles that no mask hides for that connection, and nothing else. Not so if a profile name has a quote: it announces profiles nobody registered.", "quantifier": "every set of features, languages, profiles and masks", "why_tests_cant": "all names and all sizes", "anchors": ["src/vortex_greetings.c:__vortex_greetings_build_message", "src/vortex_greetings.c:vortex_greetings_set_features", "src/vortex_profiles.c:vortex_profiles_register"]}
{"id": "C114", "title": "Building the greetings stays inside of its buffer", "statement": "The greetings message is either refused or written inside of the buffer reserved for it, whatever the features, languages and profiles. Not so: with features and languages of certain sizes and no profile to announce the last octets are written past the end.", "quantifier": "every set of features, languages, profiles and masks", "why_tests_cant": "sizes at the edge of the buffer; the octets past the end are not seen by a test", "anchors": ["src/vortex_greetings.c:__vortex_greetings_build_message", "src/vortex_greetings.c:vortex_greetings_send"]}
{"id": "C115", "title": "Greetings arrive whole however they are cut", "statement": "The greetings of a peer are received whole by both sides, in one frame or in any number of them cut anywhere. True if the content with its headers has at most 4096 octets; longer greetings can be built and sent but no peer can receive them in any way, because no window is granted before they are complete.", "quantifier": "every message and every way to cut it", "why_tests_cant": "all cuts in frames", "anchors": ["src/vortex_greetings.c:vortex_greetings_process", "src/vortex_listener.c:__vortex_listener_second_step_accept", "src/vortex_channel.c:vortex_channel_check_incoming_seqno"]}
{"id": "C116", "title": "Only a whole greetings reply is accepted", "statement": "The greetings accepted are the body of one whole reply to message 0, the first thing the peer sends, with all its frames in order; anything else ends the connection. Not so for a listener: frames that do not belong to the greetings are ignored and later ones are accepted.", "quantifier": "every sequence of frames", "why_tests_cant": "all sequences of frames of a peer that misbehaves", "anchors": ["src/vortex_greetings.c:vortex_greetings_process", "src/vortex_greetings.c:vortex_greetings_is_reply_ok", "src/vortex_listener.c:__vortex_listener_second_step_accept", "src/vortex_frame_factory.c:vortex_frame_join"]}
{"id": "C117", "title": "vortex_connection_new comes back", "statement": "vortex_connection_new, with a timeout, comes back: with the connection when all the frames of the greetings come in time, without it when the time is over or the peer closes. Not so if the peer closes after a fragment of the greetings: it never comes back and never waits.", "quantifier": "every sequence of frames, waits and closings", "why_tests_cant": "executions that do not end, all timings", "anchors": ["src/vortex_connection.c:vortex_connection_do_greetings_exchange", "src/vortex_greetings.c:vortex_greetings_client_process"]}
{"id": "C118", "title": "What is known of a peer comes from its greetings", "statement": "The profiles, features and languages known of a peer are those its own greetings say, and a peer with invalid greetings is refused, also with the cache of greetings shared by all connections. True if the payload has no zero octet; a payload with one, which is not valid, is accepted after valid greetings with the same text up to it.", "quantifier": "every sequence of connections and every payload", "why_tests_cant": "all payloads, all orders of connections", "anchors": ["src/vortex_connection.c:vortex_connection_parse_greetings_and_enable", "src/vortex_connection.c:vortex_connection_get_remote_profiles"]}
{"id": "C119", "title": "The ALIVE check gives no false alarm", "statement": "When the check enabled with vortex_alive_enable_check gives up a connection (it calls the failure handler or shuts it down) nothing was received on the connection since the last time this was looked at, and, once its channel is created, at least max_unreply_count of its messages have no reply; before that, the channel was asked for.", "quantifier": "every sequence of enablings, timer events, octets received, replies, channel and connection closings", "why_tests_cant": "the timers, the replies and the traffic of other channels interleave freely; the order that gives a false alarm may need minutes of idle time", "anchors": ["alive/vortex_alive.c:__vortex_alive_do_check", "alive/vortex_alive.c:__vortex_alive_create_channel", "alive/vortex_alive.c:__vortex_alive_trigger_failure"]}
{"id": "C120", "title": "A connection is given up only after it was asked", "statement": "The ALIVE check gives up a connection whose channel was created only if it sent at least one message on it. Not so with max_unreply_count 0: the documentation says it is refused, it is accepted, and the first period without traffic gives the connection up.", "quantifier": "every sequence of events of the check", "why_tests_cant": "a test that always has traffic, or that uses a count above 0, sees nothing", "anchors": ["alive/vortex_alive.c:__vortex_alive_do_check", "alive/vortex_alive.c:vortex_alive_enable_check"]}
{"id": "C121", "title": "A peer that stops answering is found", "statement": "If nothing is received any more the ALIVE check gives the connection up after as many periods as messages it may still send and two more; and while its channel is not answered for, after max_unreply_count x check_period and 3 seconds at least. Not so if the peer refuses the channel or closes it: the check stops, nobody is told and the connection is never given up.", "quantifier": "every execution before, every sequence of timer events after", "why_tests_cant": "a bound on the number of periods for every state; that something never happens", "anchors": ["alive/vortex_alive.c:__vortex_alive_do_check", "alive/vortex_alive.c:__vortex_alive_create_channel", "alive/vortex_alive.c:__vortex_alive_channel_created"]}
{"id": "C122", "title": "A connection is given up once and its reference given back", "statement": "On one connection the ALIVE check is enabled at most once and gives up at most once; it has one reference to the connection from then until it gives up or the close handlers run, and gives it back exactly once, whatever the order of the timers, the answer for the channel and the close.", "quantifier": "every sequence of events of the check", "why_tests_cant": "a second release is a use after free only in some interleavings of the timer, the reader and the close", "anchors": ["alive/vortex_alive.c:__vortex_alive_free_reference", "alive/vortex_alive.c:__vortex_alive_connection_closed", "alive/vortex_alive.c:__vortex_alive_trigger_failure"]}
{"id": "C123", "title": "The ALIVE check can be enabled again when it is not running", "statement": "vortex_alive_enable_check works on a connection that is up and has no check running. Not so: after the failure handler was called on a connection that is still up it always returns axl_false.", "quantifier": "every execution before, every parameter", "why_tests_cant": "what the failure handler leaves is not visible from its own test", "anchors": ["alive/vortex_alive.c:vortex_alive_enable_check", "alive/vortex_alive.c:__vortex_alive_trigger_failure"]}
{"id": "C124", "title": "The initiator accepts only the whole first reply as greetings", "statement": "What vortex_connection_new takes as the greetings of the listener is the body of one reply to message 0 with all its frames in order, and they are the first frames of the connection.", "quantifier": "every sequence of frames", "why_tests_cant": "all sequences of frames of a peer that misbehaves", "anchors": ["src/vortex_greetings.c:vortex_greetings_client_process", "src/vortex_connection.c:vortex_connection_do_greetings_exchange"]}
{"id": "C125", "title": "Greetings are received exactly up to 4096 octets", "statement": "Greetings with their MIME headers, cut in frames in any way, are received whole by either side exactly if they have at most 4096 octets; if they have more the connection is closed.", "quantifier": "every greetings message, every way to cut it, both sides", "why_tests_cant": "every cut of every message at the edge of the window", "anchors": ["src/vortex_greetings.c:vortex_greetings_client_process", "src/vortex_frame_factory.c:vortex_frame_get_next"]}
{"id": "C126", "title": "vortex_connection_new gives the connection when the greetings come", "statement": "If the frames of the greetings of the listener come before the timeout, with any waits between them, vortex_connection_new gives the connection with those greetings.", "quantifier": "every sequence of waits and frames, every timeout", "why_tests_cant": "all the ways the frames and the waits interleave", "anchors": ["src/vortex_connection.c:vortex_connection_do_greetings_exchange", "src/vortex_greetings.c:vortex_greetings_client_process"]}
{"id": "C127", "title": "A SASL peer is authenticated only if the application vouched for it", "statement": "If vortex_sasl_is_authenticated says yes on a listener connection, then a negotiation was completed, nothing cleared it since, and just before it the handler of the application accepted the credentials, or in that session gave the password with which the response of the peer was made.", "quantifier": "every sequence of starts, messages and closes on any number of SASL channels, every behaviour of the SASL library that keeps its contract, all handlers", "why_tests_cant": "the interleavings of sessions and channels and the behaviours of the library are unbounded", "anchors": ["sasl/vortex_sasl.c:__vortex_sasl_server_iterate", "sasl/vortex_sasl.c:__vortex_sasl_auth_validation", "sasl/vortex_sasl.c:vortex_sasl_is_authenticated"]}
{"id": "C128", "title": "The SASL identity is the one the application vouched for", "statement": "While the connection is authenticated, vortex_sasl_get_propertie gives the auth id and the authorization id that the application accepted.", "quantifier": "every sequence of negotiations, whatever the peer sends after them", "why_tests_cant": "a test reads the identity after one good login", "anchors": ["sasl/vortex_sasl.c:vortex_sasl_set_propertie", "sasl/vortex_sasl.c:vortex_sasl_handle_plain_request", "sasl/vortex_sasl.c:vortex_sasl_handle_cram_md5_request"]}
{"id": "C129", "title": "No SASL message makes the listener fail", "statement": "No start of a SASL channel and no message on one makes the listener read memory it does not have.", "quantifier": "every sequence of starts and messages", "why_tests_cant": "all the orders of messages of a peer that misbehaves", "anchors": ["sasl/vortex_sasl.c:__vortex_sasl_accept_negotiation_frame_receive", "sasl/vortex_sasl.c:__vortex_sasl_server_iterate"]}
{"id": "C130", "title": "One SASL negotiation completes on a connection", "statement": "Once a SASL negotiation completes, no other SASL session begins on that connection, even if its channel is closed or the authentication is cleared.", "quantifier": "every sequence of starts, messages and closes", "why_tests_cant": "unbounded sequences after the completion", "anchors": ["sasl/vortex_sasl.c:__vortex_sasl_filter_profiles", "src/vortex_channel.c:7288-7314"]}
{"id": "C131", "title": "A SASL peer that is told complete is authenticated", "statement": "When the listener answers with status complete, vortex_sasl_is_authenticated says yes.", "quantifier": "every sequence of starts and messages on any number of channels", "why_tests_cant": "interleavings of several SASL channels", "anchors": ["sasl/vortex_sasl.c:__vortex_sasl_server_iterate", "sasl/vortex_sasl.c:vortex_sasl_is_authenticated"]}
{"id": "C132", "title": "A SASL authentication lasts", "statement": "A listener connection that is authenticated stays so whatever comes next.", "quantifier": "every event after the authentication", "why_tests_cant": "what may come next is unbounded", "anchors": ["sasl/vortex_sasl.c:vortex_sasl_is_authenticated", "sasl/vortex_sasl.c:__vortex_sasl_notify"]}
{"id": "C133", "title": "The SASL initiator is told once", "statement": "Each vortex_sasl_start_auth calls the handler of the user once, with VortexOk exactly if the connection is authenticated; the synchronous call does not use its queue after it is released.", "quantifier": "every reply of the listener, every result of the library, every interleaving of the notification and the caller", "why_tests_cant": "all replies and all interleavings", "anchors": ["sasl/vortex_sasl.c:__vortex_sasl_start_auth", "sasl/vortex_sasl.c:__vortex_sasl_get_base64_blob", "sasl/vortex_sasl.c:vortex_sasl_start_auth_sync"]}
{"id": "C134", "title": "The SASL initiator is authenticated only if its library says so", "statement": "The initiator is told VortexOk only if the SASL library ended its side of the mechanism, which for DIGEST-MD5 checks the listener.", "quantifier": "every sequence of replies", "why_tests_cant": "every listener that does not follow the mechanism", "anchors": ["sasl/vortex_sasl.c:__vortex_sasl_initiator_do_steps"]}
{"id": "C135", "title": "Asking again for a SASL authentication changes nothing", "statement": "vortex_sasl_start_auth on a connection that is authenticated is refused and leaves it authenticated.", "quantifier": "every state that is authenticated, every call", "why_tests_cant": "all states", "anchors": ["sasl/vortex_sasl.c:vortex_sasl_start_auth", "sasl/vortex_sasl.c:__vortex_sasl_notify"]}
{"id": "C136", "title": "A TLS listener connection has done a handshake", "statement": "A connection of the listener that says it is TLS (vortex_connection_is_tlsficated) has ended a TLS handshake that its post check, if any, accepted.", "quantifier": "every sequence of start messages, readable sockets and results of OpenSSL", "why_tests_cant": "every order of results of SSL_accept", "anchors": ["tls/vortex_tls.c:vortex_tls_initial_accept", "tls/vortex_tls.c:vortex_tls_prepare_listener", "tls/vortex_tls.c:vortex_tls_process_start_msg"]}
{"id": "C137", "title": "Nothing goes in the clear after TLS is accepted", "statement": "Once the listener has replied proceed, no octet of the connection is read or written outside TLS.", "quantifier": "every sequence of events at the listener", "why_tests_cant": "every interleaving of the sequencer and the reader", "anchors": ["tls/vortex_tls.c:vortex_tls_initial_accept", "tls/vortex_tls.c:vortex_tls_prepare_listener", "src/vortex_reader.c:__vortex_reader_process_socket"]}
{"id": "C138", "title": "TLS is not undone nor started twice", "statement": "Once the connection of the listener is TLS it stays so, its octets all go through TLS and a second TLS start is refused.", "quantifier": "every run, and every run that continues it", "why_tests_cant": "runs without bound", "anchors": ["tls/vortex_tls.c:vortex_tls_process_start_msg", "tls/vortex_tls.c:vortex_tls_prepare_listener"]}
{"id": "C139", "title": "The TLS initiator is told exactly once", "statement": "vortex_tls_start_negotiation calls the handler of the user exactly once, as its last action and with a connection that exists.", "quantifier": "every state of the connection, every reply and every result of OpenSSL", "why_tests_cant": "every combination of failures", "anchors": ["tls/vortex_tls.c:__vortex_tls_start_negotiation"]}
{"id": "C140", "title": "VortexOk means TLS", "statement": "When the handler is told VortexOk the connection it is given is flagged TLS, uses the TLS handlers, ended a handshake with a certificate, passed the post check and is watched with flow control on.", "quantifier": "every state of the connection, every reply and every result of OpenSSL", "why_tests_cant": "every combination of results", "anchors": ["tls/vortex_tls.c:__vortex_tls_start_negotiation", "tls/vortex_tls.c:vortex_tls_invoke_tls_activation"]}
{"id": "C141", "title": "A refused TLS leaves the connection as it was", "statement": "When the listener refuses TLS the initiator still has its connection, up and working as before: its channels go on receiving.", "quantifier": "every connection and every reply that is not proceed; every traffic afterwards", "why_tests_cant": "traffic without bound", "anchors": ["tls/vortex_tls.c:__vortex_tls_start_negotiation", "src/vortex_connection.c:vortex_connection_seq_frame_updates"]}
{"id": "C142", "title": "A connection whose handshake failed is closed", "statement": "When the handshake or a check after it fails, the connection given to the handler is closed.", "quantifier": "every result of SSL_connect and of the checks", "why_tests_cant": "every result of OpenSSL", "anchors": ["tls/vortex_tls.c:vortex_tls_invoke_tls_activation", "tls/vortex_tls.c:__vortex_tls_start_negotiation"]}
{"id": "C143", "title": "Auto TLS does not give a connection in the clear", "statement": "With automatic TLS and failures not allowed, a new connection that is up is TLS.", "quantifier": "every connection, reply and result", "why_tests_cant": "every combination of failures", "anchors": ["tls/vortex_tls.c:vortex_tls_auto_tlsfixate_conn", "tls/vortex_tls.c:vortex_tls_start_negotiation_sync"]}
{"id": "C144", "title": "The synchronous TLS call gives what the handler is told", "statement": "vortex_tls_start_negotiation_sync returns the connection and the status of the notification, and uses no connection that was released.", "quantifier": "every connection, and every interleaving of the notification, the wait and the timeout", "why_tests_cant": "interleavings", "anchors": ["tls/vortex_tls.c:vortex_tls_start_negotiation_sync", "tls/vortex_tls.c:__vortex_tls_start_negotiation_sync_process"]}
{"id": "C145", "title": "vortex_tls_verify_cert accepts the certificates of the server name only", "statement": "It returns true exactly if the connection is TLS, the library verified the certificate and its common name is the server name.", "quantifier": "every certificate and server name", "why_tests_cant": "every name", "anchors": ["tls/vortex_tls.c:vortex_tls_verify_cert"]}
{"id": "C146", "title": "The text of a digest determines it", "statement": "vortex_tls_get_digest gives two hexadecimal digits for each octet, separated by colons, within the buffer; different digests have different texts.", "quantifier": "every digest", "why_tests_cant": "every octet string", "anchors": ["tls/vortex_tls.c:__vortex_tls_translateToOctal", "tls/vortex_tls.c:vortex_tls_get_digest"]}
{"id": "C147", "title": "An occurrence is reported through the PULL API exactly once", "statement": "With the PULL API active and no mask installed, each frame received, channel added, removed, asked to start or to close, connection accepted, ready or closed gives exactly one event.", "quantifier": "every interleaving of occurrences, handlers, users, init and cleanup", "why_tests_cant": "all interleavings, and init called again", "anchors": ["pull/vortex_pull.c:vortex_pull_init", "pull/vortex_pull.c:vortex_pull_register_new_connection", "pull/vortex_pull.c:vortex_pull_frame_received"]}
{"id": "C148", "title": "Events are fetched in the order they were pushed", "statement": "vortex_pull_next_event gives the events in the order in which the handlers pushed them, each once; what is left in the queue is the rest.", "quantifier": "every interleaving", "why_tests_cant": "all interleavings", "anchors": ["pull/vortex_pull.c:vortex_pull_next_event"]}
{"id": "C149", "title": "A request to start or close a channel is never left without an answer", "statement": "With the PULL API, a request to start or to close a channel reaches the user as an event or is accepted.", "quantifier": "every interleaving", "why_tests_cant": "cleanup at any moment", "anchors": ["pull/vortex_pull.c:vortex_pull_start_handler", "pull/vortex_pull.c:vortex_pull_close_notify", "pull/vortex_pull.c:vortex_pull_cleanup"]}
{"id": "C150", "title": "Exactly the masked events are filtered", "statement": "An event is not reported exactly if some enabled mask has its bit; add and remove change exactly the bits given; a mask identifier is installed at most once.", "quantifier": "every set of masks, every bit pattern", "why_tests_cant": "all bit patterns", "anchors": ["pull/vortex_pull.c:vortex_pull_event_is_filtered", "pull/vortex_pull.c:vortex_event_mask_add", "pull/vortex_pull.c:vortex_event_mask_remove", "pull/vortex_pull.c:vortex_pull_set_event_mask"]}
{"id": "C151", "title": "An event lives while somebody has it and is freed once", "statement": "An event stays allocated while a handler, the queue or the user has a reference, and is freed exactly once after that, whenever cleanup is called.", "quantifier": "every interleaving of handlers, user and cleanup", "why_tests_cant": "races between cleanup and handlers", "anchors": ["pull/vortex_pull.c:vortex_event_ref", "pull/vortex_pull.c:vortex_event_unref", "pull/vortex_pull.c:vortex_pull_cleanup"]}
{"id": "C152", "title": "A wait set grows to the socket limit of the process", "statement": "With poll(2) or epoll(2) any number of sockets up to the hard limit of the process can be watched at once; adding one never writes outside the arrays of the set and the arithmetic of its size never overflows.", "quantifier": "every limit, every sequence of additions and clears", "why_tests_cant": "needs limits above two to the thirty or thousands of sockets", "anchors": ["src/vortex_io.c:__vortex_io_waiting_next_size", "src/vortex_io.c:__vortex_io_waiting_poll_add_to", "src/vortex_io.c:__vortex_io_waiting_epoll_add_to", "src/vortex_io.c:__vortex_io_waiting_epoll_wait_on"]}
{"id": "C153", "title": "Exactly the readable sockets are dispatched", "statement": "After a wait with poll(2) or epoll(2), the connections handed to the reader are exactly the watched ones the kernel reports as readable, each once and in order.", "quantifier": "every set of reported events", "why_tests_cant": "all combinations of reported events", "anchors": ["src/vortex_io.c:__vortex_io_waiting_poll_dispatch", "src/vortex_io.c:__vortex_io_waiting_epoll_dispatch"]}
{"id": "C154", "title": "The wait blocks until there is something to do", "statement": "A wait that returns reports at least one socket the reader then acts on; the reader never spins over a socket that only signals an error or over an empty set.", "quantifier": "every set of watched sockets and events", "why_tests_cant": "the effect is CPU use, which tests do not observe", "anchors": ["src/vortex_io.c:__vortex_io_waiting_poll_dispatch", "src/vortex_io.c:__vortex_io_waiting_epoll_wait_on"]}
{"id": "C155", "title": "select(2) is used within the limits of its set", "statement": "With select(2) a descriptor is added exactly if it fits the set, and asking for a descriptor says whether the kernel reported it, without touching memory outside of the set.", "quantifier": "every descriptor and sequence of additions", "why_tests_cant": "needs descriptors beyond FD_SETSIZE, or descriptor 0", "anchors": ["src/vortex_io.c:__vortex_io_waiting_default_add_to", "src/vortex_io.c:__vortex_io_waiting_default_is_set", "src/vortex_io.c:vortex_io_waiting_invoke_is_set_fd_group"]}
{"id": "C156", "title": "The reader releases every reference it takes", "statement": "Every reference taken to watch a connection or a listener is at any moment in a pending request, in a list of the reader, or released; once the reader has ended all of them are released.", "quantifier": "every interleaving of the reader with the threads that watch, unwatch and close connections", "why_tests_cant": "all interleavings", "anchors": ["src/vortex_reader.c:vortex_reader_watch_connection", "src/vortex_reader.c:vortex_reader_watch_listener", "src/vortex_reader.c:__vortex_reader_stop_process", "src/vortex_reader.c:vortex_reader_register_watch"]}
{"id": "C157", "title": "A request to stop ends the reader, once", "statement": "After vortex_reader_stop the reader ends whatever else it is asked, and the caller is told once.", "quantifier": "every interleaving, every result of the wait", "why_tests_cant": "depends on the order of requests within a batch", "anchors": ["src/vortex_reader.c:vortex_reader_stop", "src/vortex_reader.c:vortex_reader_read_pending", "src/vortex_reader.c:__vortex_reader_run"]}
{"id": "C158", "title": "A foreach visits the connections that are up and is answered", "statement": "vortex_reader_foreach runs the user function over each connection and listener the reader has that is up, and each foreach asked for is notified as done exactly once.", "quantifier": "every interleaving", "why_tests_cant": "a change of the I/O mechanism at any moment", "anchors": ["src/vortex_reader.c:vortex_reader_foreach", "src/vortex_reader.c:vortex_reader_foreach_impl", "src/vortex_reader.c:__vortex_reader_change_io_mech"]}
{"id": "C159", "title": "A connection that is up stays watched", "statement": "While a connection is up, is not unwatched and the I/O mechanism takes it, the reader keeps it and each turn waits on every connection it has that is not blocked.", "quantifier": "every interleaving", "why_tests_cant": "all interleavings; unwatch before watch", "anchors": ["src/vortex_reader.c:__vortex_reader_build_set_to_watch_aux", "src/vortex_reader.c:vortex_reader_unwatch_connection"]}
{"id": "C160", "title": "The connections with something to read are read in the turn", "statement": "After a wait, each connection or listener reported as readable is read, in the order of the lists, before the pending requests are attended.", "quantifier": "every set of connections, every report", "why_tests_cant": "a listener closed while waiting", "anchors": ["src/vortex_reader.c:__vortex_reader_check_listener_list", "src/vortex_reader.c:__vortex_reader_check_connection_list", "src/vortex_reader.c:__vortex_reader_dispatch_connection"]}
{"id": "C161", "title": "The reader changes of I/O mechanism only when it is installed", "statement": "When the I/O mechanism is changed, the reader creates its new wait set only after the new mechanism has been installed.", "quantifier": "every interleaving", "why_tests_cant": "a request queued between the two notifications", "anchors": ["src/vortex_reader.c:vortex_reader_notify_change_io_api", "src/vortex_reader.c:vortex_reader_notify_change_done_io_api", "src/vortex_reader.c:__vortex_reader_change_io_mech"]}
{"id": "C162", "title": "The session starts where the reply of the HTTP proxy ends", "statement": "A connection created through an HTTP proxy sends its BEEP greetings only after a 2xx reply to CONNECT, and the session starts with the first octet after the empty line that ends that reply.", "quantifier": "every reply of the proxy, cut in every way by the socket", "why_tests_cant": "all the replies and the ways to receive them", "anchors": ["http/vortex_http.c:__vortex_http_connection_new"]}
{"id": "C163", "title": "The result of a connection through an HTTP proxy is always told", "statement": "vortex_http_connection_new tells its result exactly once: with the value returned, or calling on_connected, whatever happens with the proxy; and the setup is released.", "quantifier": "every outcome of the connection, reply and greetings", "why_tests_cant": "negative replies with a handler", "anchors": ["http/vortex_http.c:__vortex_http_connection_new", "http/vortex_http.c:vortex_http_connection_new"]}
{"id": "C164", "title": "A connection made through an HTTP proxy is known as such", "statement": "vortex_http_connection_is_proxied is true for the connections created through a proxy and for no other.", "quantifier": "every connection, with and without handler", "why_tests_cant": "both modes of creation", "anchors": ["http/vortex_http.c:vortex_http_connection_is_proxied"]}
{"id": "C165", "title": "The CONNECT request names the host and nothing else", "statement": "The request sent to the HTTP proxy is one CONNECT line and one Host line with the host and port given, whatever they are.", "quantifier": "every host and port", "why_tests_cant": "hosts with line feeds", "anchors": ["http/vortex_http.c:__vortex_http_connection_new"]}
{"id": "C166", "title": "The hops of a tunnel are the ones configured", "statement": "vortex_tunnel_settings_add_hop takes the documented combinations of items, in any order, and puts the hop before the ones already there; no hop configured is lost.", "quantifier": "every list of items", "why_tests_cant": "all the combinations and orders", "anchors": ["tunnel/vortex_tunnel.c:vortex_tunnel_settings_add_hop"]}
{"id": "C167", "title": "A tunnel is created by asking each hop, in order", "statement": "vortex_tunnel_new contacts the hops from the last one added to the first, each one through the one before with the rest of the route, and succeeds exactly when all are reached and the last accepts.", "quantifier": "every list of hops, every network", "why_tests_cant": "routes of any length", "anchors": ["tunnel/vortex_tunnel.c:__vortex_tunnel_new_common", "tunnel/vortex_tunnel.c:__vortex_tunnel_start_request"]}
{"id": "C168", "title": "The result of vortex_tunnel_new is told", "statement": "vortex_tunnel_new gives the connection exactly when the tunnel was created and the session was reset, and calls on_connected when a handler is given.", "quantifier": "every settings, network and result", "why_tests_cant": "the asynchronous mode", "anchors": ["tunnel/vortex_tunnel.c:vortex_tunnel_new"]}
{"id": "C169", "title": "A tunnel ends at a listener only if the application agrees", "statement": "A listener becomes the end point of a tunnel only for a request without more hops and when the accept handler, if any, says so; a request with more hops is relayed with the settings received or the ones the resolver gives.", "quantifier": "every request and every handler", "why_tests_cant": "all the documents", "anchors": ["tunnel/vortex_tunnel.c:__vortex_tunnel_start_request"]}
{"id": "C170", "title": "A relay passes the octets in order and without loss", "statement": "What a hop in the middle of a tunnel writes to one side is what it read from the other, in order, a prefix of it at any time.", "quantifier": "every sequence of rounds of the reader and results of the sockets", "why_tests_cant": "all interleavings; partial writes", "anchors": ["tunnel/vortex_tunnel.c:__vortex_tunnel_pass_octets", "src/vortex_frame_factory.c:vortex_frame_send_raw"]}
{"id": "C171", "title": "Both sides of a relay end together and safely", "statement": "When one side of a relay ends the other one is closed, they are closed for no other reason, and no connection is used after its release.", "quantifier": "every sequence of rounds of the reader and results of the sockets", "why_tests_cant": "order of failure, release and readiness", "anchors": ["tunnel/vortex_tunnel.c:__vortex_tunnel_pass_octets", "src/vortex_reader.c:__vortex_reader_build_set_to_watch_aux"]}
{"id": "C172", "title": "A connection is accepted only if every handler agrees", "statement": "The handlers installed with vortex_listener_set_on_connection_accepted are asked about a new connection once each, in order of installation, until one refuses; the connection is registered exactly when all agree, else it is told 554 and closed, and its reference is released once.", "quantifier": "every interleaving of installations, arrivals and answers", "why_tests_cant": "several connections and handlers at the same time", "anchors": ["src/vortex_listener.c:vortex_listener_accept_connection", "src/vortex_listener.c:vortex_listener_set_on_connection_accepted"]}
{"id": "C173", "title": "The channel handlers of a connection are called at most once per channel", "statement": "When a channel is added or removed, each handler installed on the connection is called at most once for it, in order of installation, even if handlers are added or removed meanwhile.", "quantifier": "every interleaving of additions, removals and notifications", "why_tests_cant": "all the interleavings", "anchors": ["src/vortex_connection.c:__vortex_connection_check_and_notify"]}
{"id": "C174", "title": "Every channel handler installed is called", "statement": "Each handler installed with vortex_connection_set_channel_added_handler (or removed) and not removed is called for each channel.", "quantifier": "every interleaving of additions, removals and notifications", "why_tests_cant": "handlers that remove handlers", "anchors": ["src/vortex_connection.c:__vortex_connection_check_and_notify", "src/vortex_connection.c:vortex_connection_remove_handler"]}
{"id": "C175", "title": "A channel handler that was removed is not called", "statement": "After vortex_connection_remove_handler returns, the handler removed is not called.", "quantifier": "every interleaving of additions, removals and notifications", "why_tests_cant": "the moment between the copy of the handler and its call", "anchors": ["src/vortex_connection.c:__vortex_connection_check_and_notify", "src/vortex_connection.c:vortex_connection_remove_handler"]}
{"id": "C176", "title": "vortex_listener_wait and vortex_listener_unlock are safe together", "statement": "vortex_listener_unlock may be called at any moment while another thread is in vortex_listener_wait: no memory is used after its release, and the wait does not end before an unlock.", "quantifier": "every interleaving of the accesses of both functions", "why_tests_cant": "races between two mutexes", "anchors": ["src/vortex_listener.c:vortex_listener_wait", "src/vortex_listener.c:vortex_listener_unlock"]}
{"id": "C177", "title": "vortex_listener_unlock releases whoever waits", "statement": "After vortex_listener_unlock every thread that had called vortex_listener_wait returns.", "quantifier": "every interleaving, every number of threads", "why_tests_cant": "lost wake-ups", "anchors": ["src/vortex_listener.c:vortex_listener_wait", "src/vortex_listener.c:vortex_listener_unlock"]}
{"id": "C178", "title": "Port sharing handlers are asked in order, up to the one that decides", "statement": "The handlers of port sharing are asked in order of installation about the first four octets of a connection received, until one finds its transport or fails; after that no one is asked, and a failure closes the connection; connections opened by this side are not examined.", "quantifier": "every list of handlers, every answer, every stream", "why_tests_cant": "all the combinations of answers and reads", "anchors": ["src/vortex_listener.c:__vortex_listener_check_port_sharing"]}
{"id": "C179", "title": "A port sharing handler is limited to its local address and port", "statement": "A handler installed with vortex_listener_set_port_sharing_handling with a local address or port is called only for connections to that address and port.", "quantifier": "every handler and connection", "why_tests_cant": "all the addresses", "anchors": ["src/vortex_listener.c:vortex_listener_set_port_sharing_handling", "src/vortex_listener.c:__vortex_listener_check_port_sharing"]}
{"id": "C180", "title": "A port sharing handler that found nothing is not called again", "statement": "A port sharing handler that answers 1 is not called again for the same connection, nor any handler once a transport was found.", "quantifier": "every sequence of reads", "why_tests_cant": "the following reads of the connection", "anchors": ["src/vortex_listener.c:__vortex_listener_check_port_sharing", "src/vortex_frame_factory.c:vortex_frame_get_next"]}
{"id": "C181", "title": "The detection of transports does not depend on the segmentation", "statement": "The handlers of port sharing see the first four octets of the connection, however they arrive, and nothing of a BEEP session.", "quantifier": "every way to cut the stream", "why_tests_cant": "first segments shorter than four octets", "anchors": ["src/vortex_listener.c:__vortex_listener_check_port_sharing"]}
{"id": "C182", "title": "vortex_listener_shutdown closes the listener and what it created", "statement": "After vortex_listener_shutdown (listener, axl_true) the listener is closed, so are all the connections it created, it accepts no more, and no other connection is closed.", "quantifier": "every set of connections and everything that may happen meanwhile", "why_tests_cant": "connections accepted during the shutdown or outside of the reader", "anchors": ["src/vortex_listener.c:vortex_listener_shutdown", "src/vortex_listener.c:__vortex_listener_shutdown_foreach"]}
{"id": "C183", "title": "A MIME header that was set is found", "statement": "After a series of vortex_frame_set_mime_header calls, vortex_frame_get_mime_header and its walk return for every name the values set for it, in order; for the five usual names (Content-Type, Content-Transfer-Encoding, MIME-Version, Content-ID, Content-Description) only the last one; and vortex_frame_mime_header_count is the number of times it was set.", "quantifier": "every sequence of headers and every name", "why_tests_cant": "all the interleavings of names, repeated and differing only in case", "anchors": ["src/vortex_frame_factory.c:vortex_frame_set_mime_header", "src/vortex_frame_factory.c:vortex_frame_get_mime_header", "src/vortex_frame_factory.c:vortex_frame_mime_header_count"]}
{"id": "C184", "title": "Setting a MIME header again replaces it, setting it to NULL removes it", "statement": "vortex_frame_set_mime_header on a name that is already set replaces the value, with NULL it removes the header, and in neither case other headers change.", "quantifier": "every sequence of calls and every name", "why_tests_cant": "repeated headers and removals after repetitions", "anchors": ["src/vortex_frame_factory.c:vortex_frame_set_mime_header"]}
{"id": "C185", "title": "The size of the MIME headers is the size of the text they make", "statement": "vortex_frame_get_mime_header_size is the number of octets that the headers set take when written as a MIME header block, and it is never negative.", "quantifier": "every sequence of calls", "why_tests_cant": "all the combinations of settings and removals", "anchors": ["src/vortex_frame_factory.c:vortex_frame_set_mime_header", "src/vortex_frame_factory.c:vortex_frame_get_mime_header_size"]}
{"id": "C186", "title": "The memory of frames is safe and is released", "statement": "A program that uses frames it holds a reference to, through vortex_frame_create*, the reception, vortex_frame_copy, _join, _join_extending, _mime_process, _set_mime_header, _are_equal, _ref, _unref and the getters, never reads or writes memory it should not, and when the last reference to every frame is released no memory is left.", "quantifier": "every program over the frame functions", "why_tests_cant": "all the orders of calls; the failures show in other allocations", "anchors": ["src/vortex_frame_factory.c:vortex_frame_create_full", "src/vortex_frame_factory.c:vortex_frame_copy", "src/vortex_frame_factory.c:__vortex_frame_join_common", "src/vortex_frame_factory.c:vortex_frame_free", "src/vortex_frame_factory.c:vortex_frame_unref"]}
{"id": "C187", "title": "A frame returns what it was created with", "statement": "The type, channel, message number, more flag, sequence number, answer number, sizes, payload and content that the getters return are the ones given to the creation or read from the connection, and the ones of its sources for a copy or a join.", "quantifier": "every program over the frame functions", "why_tests_cant": "all the ways to obtain a frame", "anchors": ["src/vortex_frame_factory.c:vortex_frame_create", "src/vortex_frame_factory.c:vortex_frame_create_full", "src/vortex_frame_factory.c:vortex_frame_get_more_flag", "src/vortex_frame_factory.c:vortex_frame_get_content"]}
{"id": "C188", "title": "A copy of a frame equals the frame", "statement": "vortex_frame_are_equal answers yes for a frame and the copy vortex_frame_copy makes of it.", "quantifier": "every frame and everything that happened before", "why_tests_cant": "all the ways to obtain a frame", "anchors": ["src/vortex_frame_factory.c:vortex_frame_copy", "src/vortex_frame_factory.c:vortex_frame_are_equal"]}
{"id": "C189", "title": "Equal frames have the same payload", "statement": "When vortex_frame_are_equal answers yes the fields and the payloads of both frames are the same octets.", "quantifier": "every pair of frames", "why_tests_cant": "binary payloads", "anchors": ["src/vortex_frame_factory.c:vortex_frame_are_equal", "src/vortex_frame_factory.c:vortex_frame_common_string_check"]}
{"id": "C190", "title": "A join holds both payloads and changes neither source", "statement": "vortex_frame_join returns, for two consecutive frames, one with the payload of the first followed by the one of the second, and leaves both as they were.", "quantifier": "every pair of frames and everything done before and after", "why_tests_cant": "what remains in the first frame", "anchors": ["src/vortex_frame_factory.c:vortex_frame_join", "src/vortex_frame_factory.c:__vortex_frame_join_common"]}
{"id": "C191", "title": "A copy is independent of its original", "statement": "What is done with a copy, or with any other frame, does not change what the original returns, and the other way round.", "quantifier": "every program over the frame functions", "why_tests_cant": "all the later calls", "anchors": ["src/vortex_frame_factory.c:vortex_frame_copy", "src/vortex_frame_factory.c:vortex_frame_set_mime_header"]}
{"id": "C192", "title": "Joining the fragments of a message as they arrive gives the message", "statement": "An application that joins every fragment of a message to the previous ones with vortex_frame_join, releasing both sources, ends with one frame with the whole payload, no more flag and the sequence number of the first fragment, and once released nothing is left in memory.", "quantifier": "every number, size and content of fragments, sequence numbers that wrap included", "why_tests_cant": "unbounded number of fragments", "anchors": ["src/vortex_frame_factory.c:vortex_frame_join", "src/vortex_frame_factory.c:vortex_frame_are_joinable"]}
{"id": "C193", "title": "A start request is read by the peer as the application asked", "statement": "The channel number, serverName, profile, encoding and profile content given to vortex_channel_new_full are the ones that the start message carries to the peer's handlers.", "quantifier": "every number, name, profile and content (octets, with the size given)", "why_tests_cant": "contents and names with any octet", "anchors": ["src/vortex_frame_factory.c:vortex_frame_get_start_message", "src/vortex_channel.c:__vortex_channel_0_frame_received_get_start_param"]}
{"id": "C194", "title": "Close requests, errors and start replies are read as they were written", "statement": "The code, language and text of vortex_frame_get_error_message and vortex_frame_get_close_message, and the profile and content of vortex_frame_get_start_rpy_message, are what the receiver gets from them.", "quantifier": "every code, language, text, profile and content", "why_tests_cant": "texts with any octet", "anchors": ["src/vortex_frame_factory.c:vortex_frame_get_error_message", "src/vortex_frame_factory.c:vortex_frame_get_close_message", "src/vortex_frame_factory.c:vortex_frame_get_start_rpy_message", "src/vortex_channel.c:vortex_channel_validate_err"]}
{"id": "C195", "title": "The kind of a message of channel 0 is the one of its element", "statement": "A message received on channel 0 is handled as a start, close, ok or error message exactly when that is the name of its element.", "quantifier": "every payload", "why_tests_cant": "all the payloads", "anchors": ["src/vortex_channel.c:__vortex_channel_0_frame_received_identify_type"]}
{"id": "C196", "title": "Whatever arrives on channel 0 is answered or ends the session", "statement": "Any octets sent by the peer as a message on channel 0 are answered, with an error if they are not a valid request, or end the session; never with undefined behaviour.", "quantifier": "every payload", "why_tests_cant": "malformed and hostile payloads", "anchors": ["src/vortex_channel.c:vortex_channel_0_frame_received", "src/vortex_channel.c:__vortex_channel_0_frame_received_get_start_param", "src/vortex_channel.c:__vortex_channel_0_frame_received_get_close_param"]}
{"id": "C197", "title": "The channel of a request is the number written in it", "statement": "A start or close request refers to the channel whose decimal number it has; requests without a proper number or profile are refused.", "quantifier": "every request", "why_tests_cant": "all the texts of the attributes", "anchors": ["src/vortex_channel.c:__vortex_channel_0_frame_received_get_start_param", "src/vortex_channel.c:__vortex_channel_0_frame_received_get_close_param"]}
{"id": "C198", "title": "Who decides, who is told and what is listed follow the registrations", "statement": "With calls that do not overlap: a start request for a profile is decided by its extended start handler, else by its start handler, else by the global one, with the data given for it; a close is told to its close handler; a frame goes to its received handler; registering a profile again replaces its start, close and received handlers and keeps the extended one; an unregistered profile has none; a greeting lists the registered profiles in order.", "quantifier": "every sequence of calls to the functions of profiles, of any length", "why_tests_cant": "sequences are unbounded", "anchors": ["src/vortex_profiles.c:vortex_profiles_register", "src/vortex_profiles.c:vortex_profiles_register_extended_start", "src/vortex_profiles.c:vortex_profiles_invoke_start", "src/vortex_profiles.c:vortex_profiles_invoke_close", "src/vortex_profiles.c:vortex_profiles_invoke_frame_received"]}
{"id": "C199", "title": "Profiles can be registered, used and unregistered from any thread", "statement": "Threads may register, configure, use and unregister profiles at the same time without undefined behaviour.", "quantifier": "every interleaving of any number of threads and calls", "why_tests_cant": "races with vortex_profiles_unregister", "anchors": ["src/vortex_profiles.c:vortex_profiles_unregister", "src/vortex_profiles.c:vortex_profiles_register", "src/vortex_profiles.c:vortex_profiles_is_defined_start", "src/vortex_profiles.c:__vortex_profiles_get_and_ref"]}
{"id": "C200", "title": "The memory of an unregistered profile is released", "statement": "When no call is in progress, the memory held is the one of the registered profiles and the mutex of the list is free.", "quantifier": "every interleaving that ends with all the calls finished", "why_tests_cant": "leaks and double releases depend on the interleaving", "anchors": ["src/vortex_profiles.c:__vortex_profiles_unref", "src/vortex_profiles.c:__vortex_profiles_ref", "src/vortex_profiles.c:vortex_profiles_unregister"]}
{"id": "C201", "title": "A handler is called with the data given with it", "statement": "The handler called for a profile is one that the application gave for it, with the data given with it.", "quantifier": "every interleaving of configuration and use", "why_tests_cant": "torn updates between the handler and its data", "anchors": ["src/vortex_profiles.c:vortex_profiles_register", "src/vortex_profiles.c:vortex_profiles_register_extended_start", "src/vortex_profiles.c:vortex_profiles_invoke_start"]}
{"id": "C202", "title": "A greeting lists all the registered profiles", "statement": "The profiles of a greeting are the registered ones, each once and in order, even if other threads register and unregister profiles meanwhile.", "quantifier": "every interleaving of the writing of a greeting with other calls", "why_tests_cant": "concurrent changes to the list", "anchors": ["src/vortex_greetings.c:__vortex_greetings_build_message", "src/vortex_profiles.c:vortex_profiles_acquire", "src/vortex_profiles.c:vortex_profiles_release"]}
{"id": "C203", "title": "It can be asked if a profile has a frame received handler", "statement": "vortex_profiles_is_defined_received answers if a frame received handler is set for the profile.", "quantifier": "every profile and configuration", "why_tests_cant": "the answer is right for the common configurations", "anchors": ["src/vortex_profiles.c:vortex_profiles_is_defined_received"]}
{"id": "C204", "title": "A frame accepted for a profile reaches its handler", "statement": "When vortex_profiles_invoke_frame_received accepts a frame, the frame received handler of the profile is called with it.", "quantifier": "every interleaving with calls that change the profile", "why_tests_cant": "the handler changes after the frame is accepted", "anchors": ["src/vortex_profiles.c:vortex_profiles_invoke_frame_received", "src/vortex_profiles.c:__vortex_profiles_invoke_frame_received"]}
{"id": "C205", "title": "Who gets a frame", "statement": "A frame received is given to the first that there is of: the frame received handler of the context (except on channel 0), the thread waiting for that reply with vortex_channel_wait_reply or vortex_channel_get_reply, the handler of the channel, the handler of the profile; if there is none it is dropped and released. A thread that waits for a reply gets it.", "quantifier": "every state of the handlers and every frame", "why_tests_cant": "all the combinations of handlers and waiting threads", "anchors": ["src/vortex_reader.c:__vortex_reader_process_socket", "src/vortex_reader.c:vortex_reader_invoke_frame_received", "src/vortex_channel.c:vortex_channel_invoke_received_handler", "src/vortex_profiles.c:vortex_profiles_invoke_frame_received", "src/vortex_ctx.c:vortex_ctx_set_frame_received"]}
{"id": "C206", "title": "A frame received is kept in one place until it is released once", "statement": "At any moment every frame received is held once by the library, or was given to the thread that waited for it, or was released once; and it is given to a handler or dropped at most once.", "quantifier": "every interleaving of receptions, tasks, handlers, changes of handlers, closes and reopenings, with or without serialize", "why_tests_cant": "double releases and leaks depend on the interleaving", "anchors": ["src/vortex_channel.c:__vortex_channel_invoke_received_handler", "src/vortex_channel.c:vortex_channel_check_serialize", "src/vortex_channel.c:vortex_channel_check_serialize_pending", "src/vortex_profiles.c:__vortex_profiles_invoke_frame_received"]}
{"id": "C207", "title": "The channel and the connection are in memory while their frames are delivered", "statement": "Whatever happens to the channel and the connection, the tasks that deliver their frames find them in memory.", "quantifier": "every interleaving of receptions, tasks, handlers, closes and reopenings", "why_tests_cant": "use after release with unlucky closes", "anchors": ["src/vortex_channel.c:__vortex_channel_invoke_received_handler", "src/vortex_profiles.c:__vortex_profiles_invoke_frame_received", "src/vortex_channel.c:vortex_channel_unref2"]}
{"id": "C208", "title": "The delivery of frames releases what it takes", "statement": "When there is nothing left to deliver, the references to the channel and to the connection and the memory that the delivery took were released.", "quantifier": "every interleaving that ends with no tasks and no handlers running", "why_tests_cant": "leaks on the less usual ends of a connection", "anchors": ["src/vortex_channel.c:__vortex_channel_invoke_received_handler", "src/vortex_profiles.c:__vortex_profiles_invoke_frame_received", "src/vortex_channel.c:vortex_channel_check_serialize_pending"]}
{"id": "C209", "title": "No frame is lost while there is a handler for it", "statement": "While a frame received handler stays configured on the channel or on its profile and the channel is open, every frame received is given to a handler.", "quantifier": "every interleaving of receptions, tasks and handlers", "why_tests_cant": "all the orders of the tasks", "anchors": ["src/vortex_channel.c:__vortex_channel_invoke_received_handler", "src/vortex_channel.c:vortex_channel_check_serialize", "src/vortex_profiles.c:__vortex_profiles_invoke_frame_received"]}
{"id": "C210", "title": "Several threads may end the execution and only one does it", "statement": "Whatever number of threads call vortex_exit_ctx on the same context at the same time, the modules of the library are stopped once at most.", "quantifier": "every number of threads and interleaving of their steps", "why_tests_cant": "the threads have to meet inside a few instructions", "anchors": ["src/vortex.c:vortex_exit_ctx"]}
{"id": "C211", "title": "vortex_exit_ctx is reentrant", "statement": "Several threads may call vortex_exit_ctx at the same time, as its documentation says: no thread uses a mutex that was destroyed nor a context that was released.", "quantifier": "every number of threads and interleaving of their steps", "why_tests_cant": "the window is between two instructions of a thread, and the use of a destroyed mutex is seldom noticed", "anchors": ["src/vortex.c:vortex_exit_ctx", "src/vortex_ctx.c:vortex_ctx_free2"]}
{"id": "C212", "title": "The cleanups of a context are all called once, in order", "statement": "The functions installed with vortex_ctx_install_cleanup and not removed are called once, in the order in which they were installed, when the context is finished with vortex_exit_ctx or vortex_ctx_free, including the ones installed by other cleanups.", "quantifier": "every sequence of installations, removals and ends, also from the cleanups", "why_tests_cant": "tests install one or two cleanups that do nothing to the list", "anchors": ["src/vortex_ctx.c:vortex_ctx_install_cleanup", "src/vortex_ctx.c:vortex_ctx_remove_cleanup", "src/vortex.c:vortex_exit_ctx"]}
{"id": "C213", "title": "A context is released once, when its last reference is given back", "statement": "With every thread using the context only while it owns a reference, the context is released exactly when the last reference is given back, once, with whatever configuration of the logs.", "quantifier": "every number of threads and interleaving of references", "why_tests_cant": "all the interleavings of the counters", "anchors": ["src/vortex_ctx.c:vortex_ctx_ref2", "src/vortex_ctx.c:vortex_ctx_unref2", "src/vortex_ctx.c:vortex_ctx_free2"]}
{"id": "C214", "title": "vortex_ctx_unref leaves NULL in the pointer of the caller exactly when it releases the context", "statement": "The pointer of the caller of vortex_ctx_unref is set to NULL if and only if the call released the context.", "quantifier": "every number of threads and interleaving of references", "why_tests_cant": "the two threads have to be between the check and the decrement at the same time", "anchors": ["src/vortex_ctx.c:vortex_ctx_unref2"]}
{"id": "C215", "title": "The idle handler is not called twice at the same time for a connection", "statement": "The calls to the handler of vortex_ctx_set_idle_handler for a connection never overlap.", "quantifier": "every interleaving of the reader, the pool and the threads that configure", "why_tests_cant": "needs the exact interleaving of the reader and the tasks", "anchors": ["src/vortex_ctx.c:vortex_ctx_notify_idle"]}
{"id": "C216", "title": "The idle handler is called for idle connections, as configured", "statement": "The idle handler is called only for a connection without activity in the last max_idle_period seconds, with the data given with it.", "quantifier": "every sequence of traffic, time, configurations and steps of reader and tasks", "why_tests_cant": "the windows are between two stores, or between a decision and a task", "anchors": ["src/vortex_ctx.c:vortex_ctx_set_idle_handler", "src/vortex_connection.c:vortex_connection_check_idle_status"]}
{"id": "C217", "title": "The connection is in memory while its idle handler runs", "statement": "Whatever is closed or released meanwhile, the connection given to the idle handler is not released before it returns, nothing is used after its release and the release happens once.", "quantifier": "every interleaving of closings, releases and notifications", "why_tests_cant": "a use after free is seldom noticed and the interleavings are many", "anchors": ["src/vortex_ctx.c:__vortex_ctx_notify_idle"]}
{"id": "C218", "title": "A notification gives its reference back", "statement": "The reference acquired to notify that a connection is idle is given back: the connection is released when the reader, the user and the notifications have ended.", "quantifier": "every interleaving, also with changes of the handler and the end of the pool", "why_tests_cant": "a lost reference shows no error", "anchors": ["src/vortex_ctx.c:__vortex_ctx_notify_idle", "src/vortex_ctx.c:vortex_ctx_notify_idle"]}
{"id": "C219", "title": "The idle handler is called each max_idle_period", "statement": "The documentation says that the idle handler is called each max_idle_period of inactivity, not more often nor less.", "quantifier": "every sequence of traffic, time, configurations and steps", "why_tests_cant": "the cases need a change of handler or a pass of the reader in the middle of a notification", "anchors": ["src/vortex_ctx.c:vortex_ctx_set_idle_handler"]}
{"id": "C220", "title": "The totals of a connection are the octets transferred", "statement": "The octets received and sent that vortex_connection_get_receive_stamp reports are the ones read and written since the connection was created.", "quantifier": "every sequence of reads, writes and notifications", "why_tests_cant": "all the sequences", "anchors": ["src/vortex_connection.c:vortex_connection_set_receive_stamp", "src/vortex_connection.c:vortex_connection_get_receive_stamp"]}
{"id": "C221", "title": "An XML-RPC call arrives as it was made", "statement": "A method call written by vortex_xml_rpc_method_call_marshall and received by the other side has the same name, number of parameters and values, in the same places, whatever the types and the nesting.", "quantifier": "every method name and every list of values, structs and arrays nested without limit", "why_tests_cant": "the values are infinitely many and nested; the ones that break (a CDATA end, a double of seven digits, a base64) are not the ones tests use", "anchors": ["xml-rpc/vortex_xml_rpc_types.c:vortex_xml_rpc_method_call_marshall", "xml-rpc/vortex_xml_rpc.c:__vortex_xml_rpc_frame_received_parse_method_call"]}
{"id": "C222", "title": "An XML-RPC response arrives as it was made", "statement": "The value, or the fault code and text, of the response made by the service is the one the caller gets.", "quantifier": "every response", "why_tests_cant": "all the values", "anchors": ["xml-rpc/vortex_xml_rpc_types.c:vortex_xml_rpc_method_response_marshall", "xml-rpc/vortex_xml_rpc.c:__vortex_xml_rpc_invoke_process_reply"]}
{"id": "C223", "title": "What is not an XML-RPC value is refused", "statement": "The content of a typed element that is not of its type is refused, a value without type is a string as XML-RPC says, and the parameters keep their positions.", "quantifier": "every text and every document", "why_tests_cant": "the texts are infinitely many", "anchors": ["xml-rpc/vortex_xml_rpc_types.c:vortex_xml_rpc_method_value_new_from_string", "xml-rpc/vortex_xml_rpc.c:__vortex_xml_rpc_parse_value"]}
{"id": "C224", "title": "A value received can be looked into", "statement": "The members of a struct received can be read at every position below its member count, and a parameter can be asked as any type, without undefined behaviour.", "quantifier": "every document received and every position", "why_tests_cant": "the documents are the other side's, malformed ones included", "anchors": ["xml-rpc/vortex_xml_rpc_types.c:vortex_xml_rpc_struct_get_member_value_at", "xml-rpc/vortex_xml_rpc_types.c:vortex_xml_rpc_method_call_get_param_value_as_int"]}
{"id": "C225", "title": "A call is given to the service that accepts its resource", "statement": "A dispatch handler is called only if its validate handler accepts the resource, and a call is given to one service.", "quantifier": "every list of services and every call", "why_tests_cant": "depends on the combination of the answers of several services", "anchors": ["xml-rpc/vortex_xml_rpc.c:__vortex_xml_rpc_frame_received"]}
{"id": "C226", "title": "A call is answered with the response of its handler", "statement": "A call made, sent, dispatched and answered gives the caller the response the handler returned; every call not deferred gets a reply.", "quantifier": "every name, parameters, list of services and response", "why_tests_cant": "end to end over all the values", "anchors": ["xml-rpc/vortex_xml_rpc.c:__vortex_xml_rpc_frame_received", "xml-rpc/vortex_xml_rpc.c:vortex_xml_rpc_notify_reply"]}
{"id": "C227", "title": "An XML-RPC invocation is told of its own response", "statement": "The reply handler of vortex_xml_rpc_invoke is called with the response to that invocation, or told that it failed, and nothing uses memory released.", "quantifier": "every sequence of invocations, frames of the peer and interleaving of the threads", "why_tests_cant": "the reply is delivered with the data the channel has at that moment, which depends on the interleaving", "anchors": ["xml-rpc/vortex_xml_rpc.c:vortex_xml_rpc_invoke", "xml-rpc/vortex_xml_rpc.c:__vortex_xml_rpc_invoke", "xml-rpc/vortex_xml_rpc.c:__vortex_xml_rpc_invoke_process_reply"]}
{"id": "C228", "title": "Every XML-RPC invocation is told of something", "statement": "The reply handler of each invocation is called: with the response, or because it could not be sent, or because the connection was lost.", "quantifier": "every run", "why_tests_cant": "an invocation that is never told looks like a slow one", "anchors": ["xml-rpc/vortex_xml_rpc.c:vortex_xml_rpc_invoke", "src/vortex_channel.c:__vortex_channel_invoke_received_handler"]}
{"id": "C229", "title": "A reply handler is called at most once", "statement": "Whatever the peer sends and the threads do, the reply handler of an invocation is called once at most.", "quantifier": "every run", "why_tests_cant": "the second call needs a message of the peer in the middle of an invocation that fails", "anchors": ["xml-rpc/vortex_xml_rpc.c:__vortex_xml_rpc_invoke", "xml-rpc/vortex_xml_rpc.c:__vortex_xml_rpc_invoke_process_reply"]}
{"id": "C230", "title": "The application knows if its invocation was taken, and its method call is released", "statement": "vortex_xml_rpc_invoke returns true if the invocation was taken, and the method call, configured to be released after it, is released exactly once.", "quantifier": "every run", "why_tests_cant": "the leaks are silent", "anchors": ["xml-rpc/vortex_xml_rpc.c:vortex_xml_rpc_invoke", "xml-rpc/vortex_xml_rpc_types.c:vortex_xml_rpc_method_call_must_release"]}
{"id": "C231", "title": "Closing a connection created by the application is safe", "statement": "vortex_connection_close can be called by several threads that hold references, repeated after it returned false, while the connection is lost and the reader drops it: the memory is released with the last reference and never used after.", "quantifier": "every number of calls and references, and every interleaving", "why_tests_cant": "a use of memory released needs a precise interleaving with the reader", "anchors": ["src/vortex_connection.c:vortex_connection_close", "src/vortex_connection.c:vortex_connection_unref"]}
{"id": "C232", "title": "A close drops the reference of the application once", "statement": "After vortex_connection_close returned true to an application that created the connection, its reference, and no other, was dropped and the connection is closed; after false it is still there.", "quantifier": "every number of calls and every interleaving", "why_tests_cant": "counts over all the interleavings", "anchors": ["src/vortex_connection.c:vortex_connection_close"]}
{"id": "C233", "title": "A close that returns true closed the connection", "statement": "If vortex_connection_close returns true the connection is closed.", "quantifier": "every interleaving of calls", "why_tests_cant": "only two concurrent calls of which the first fails show it", "anchors": ["src/vortex_connection.c:vortex_connection_close"]}
{"id": "C234", "title": "Closing a connection owned by the library is safe", "statement": "vortex_connection_close called on a connection accepted by a listener, or on a listener, does not use memory released nor drop references that are not its own.", "quantifier": "every number of calls and references, losses of the connection and every interleaving", "why_tests_cant": "needs the loss of the connection, or the reader, between two given instructions", "anchors": ["src/vortex_connection.c:vortex_connection_close", "src/vortex_connection.c:vortex_connection_ref_internal"]}
{"id": "C235", "title": "A timeout configured is the one used", "statement": "The value given to vortex_connection_timeout or to vortex_connection_connect_timeout is the one the get functions return next, until another is configured; with nothing configured they return 60000000 and 0.", "quantifier": "every value of a long and every sequence of calls on any number of contexts", "why_tests_cant": "the value goes through a text and an int: which values survive is about all of them", "anchors": ["src/vortex_connection.c:vortex_connection_timeout", "src/vortex_connection.c:vortex_connection_get_timeout", "src/vortex_connection.c:vortex_connection_connect_timeout", "src/vortex_support.c:vortex_support_getenv_int"]}
{"id": "C236", "title": "Configuring 0 restores the default timeout", "statement": "After vortex_connection_timeout (ctx, 0) the timeout is again 60 seconds, as documented.", "quantifier": "every sequence of calls", "why_tests_cant": "depends on whether the previous value was ever asked for", "anchors": ["src/vortex_connection.c:vortex_connection_timeout", "src/vortex_connection.c:vortex_connection_get_timeout"]}
{"id": "C237", "title": "The timeouts of a context do not change those of another", "statement": "Configuring a timeout on a context has no effect on the other contexts of the process.", "quantifier": "every number of contexts and every sequence of calls", "why_tests_cant": "tests use one context at a time", "anchors": ["src/vortex_connection.c:vortex_connection_timeout", "src/vortex_connection.c:vortex_connection_get_connect_timeout"]}
{"id": "C238", "title": "A timeout read by several threads is the one configured", "statement": "Every thread that asks for the timeout after it was configured gets that value, however the calls interleave; and never a value nobody configured.", "quantifier": "every interleaving of any number of calls", "why_tests_cant": "needs a thread stopped between an unlocked read and the mutex", "anchors": ["src/vortex_connection.c:vortex_connection_get_timeout"]}
{"id": "C239", "title": "A connect that fails leaves no socket and says why", "statement": "vortex_connection_sock_connect returns either an open socket or -1 with an error reported; in the second case the socket it created, if any, was closed once, and no waiting set is left.", "quantifier": "every behaviour of the kernel: results, errno values and clock readings", "why_tests_cant": "the failures are those of the kernel at each of a dozen calls", "anchors": ["src/vortex_connection.c:vortex_connection_sock_connect_common", "src/vortex_connection.c:vortex_connection_check_socket_limit", "src/vortex_connection.c:__vortex_connection_wait_on"]}
{"id": "C240", "title": "A socket given by a connect is connected, and one connected in time is given", "statement": "The socket vortex_connection_sock_connect returns is connected to the peer; and if the connection is made before the timeout it is returned.", "quantifier": "every timeout, number of waits and behaviour of the kernel", "why_tests_cant": "depends on the instant the handshake ends and on the value of errno before", "anchors": ["src/vortex_connection.c:vortex_connection_sock_connect_common", "src/vortex_connection.c:__vortex_connection_wait_on"]}
{"id": "C241", "title": "A connect does not time out before its time", "statement": "A connection that could not be created because of the timeout waited for the whole of it.", "quantifier": "every timeout, clock and behaviour of the kernel", "why_tests_cant": "the date is an input", "anchors": ["src/vortex_connection.c:__vortex_connection_wait_on"]}
{"id": "C242", "title": "The greetings have the rest of the timeout", "statement": "Once connected, vortex_connection_new waits for the greetings of the peer during what is left of the connect timeout.", "quantifier": "every timeout, clock and order of arrival", "why_tests_cant": "depends on greetings that come a little later than the connection", "anchors": ["src/vortex_connection.c:vortex_connection_sock_connect_common", "src/vortex_connection.c:vortex_connection_do_greetings_exchange"]}
{"id": "C243", "title": "The creation of a connection is notified once", "statement": "vortex_connection_new calls its handler exactly once if there is one, returns a connection if there is none, and releases the options once.", "quantifier": "every result of the connect, of the calls that give the local address and of the greetings", "why_tests_cant": "the failures of getsockname and getnameinfo after a connect are not reproducible", "anchors": ["src/vortex_connection.c:__vortex_connection_new", "src/vortex_connection.c:vortex_connection_new_full_common"]}
{"id": "C244", "title": "A reconnect keeps the identity and the data of a connection and drops its channels", "statement": "vortex_connection_reconnect does nothing on a connection that works and returns true. On one that does not, the identifier, the data set by the application and the references held by others are kept; the remote profiles are kept or replaced by the ones of the new greetings; every channel but a new channel 0 and every channel pool are gone, and each channel removed is notified exactly once to its closed handler, to the global handler and to each handler of removed channels.", "quantifier": "for all connections, handlers, channels and outcomes of the connect", "why_tests_cant": "needs every combination of channels, handlers and network outcomes", "anchors": ["src/vortex_connection.c:2564-2678", "src/vortex_connection.c:2725-2792"]}
{"id": "C245", "title": "The session made by a reconnect is read from its first byte", "statement": "After a reconnect over which whole valid greetings arrive, in any pieces, the connection works and its remote profiles are the ones received, whatever was being received when the earlier session ended.", "quantifier": "for all states of the frame reader left by the earlier session, fragmentations and greetings", "why_tests_cant": "the earlier session has to be cut at every byte, by the reader and by other threads", "anchors": ["src/vortex_connection.c:2725-2792", "src/vortex_frame_factory.c:1320-1409", "src/vortex_frame_factory.c:1595-1665", "src/vortex_greetings.c:271-327"]}
{"id": "C246", "title": "A reconnect uses the transport it connects", "statement": "A connection that was secured with TLS can be made again: the new session starts with the handlers of a new socket, not with those of the TLS session that is over.", "quantifier": "for all connections secured and peers", "why_tests_cant": "needs TLS sessions that die and servers that accept again", "anchors": ["src/vortex_connection.c:2725-2792", "src/vortex_connection.c:6646-6670", "tls/vortex_tls.c:890-890"]}
{"id": "C247", "title": "The reader holds one reference for each time it watches a connection", "statement": "Along any sequence of ends of session, visits of the reader, reconnects and references taken or released by other threads, the references of a connection are those of others plus one for each entry of the reader, a connection that is over is forgotten by the reader, and one that works is watched once.", "quantifier": "for all interleavings of the application, the reader and the threads that end sessions", "why_tests_cant": "schedules of several threads", "anchors": ["src/vortex_reader.c:679-710", "src/vortex_reader.c:990-1060", "src/vortex_reader.c:1526-1560", "src/vortex_connection.c:2725-2792"]}
{"id": "C248", "title": "The value of a reconnect and its handler say if the connection works", "statement": "Without a handler vortex_connection_reconnect returns what vortex_connection_is_ok says after it, and a connection that works is watched by the reader; with a handler it returns true and the handler is called exactly once.", "quantifier": "for all connections and outcomes of the connect, of the local address and of the greetings", "why_tests_cant": "needs failures of each system call", "anchors": ["src/vortex_connection.c:2027-2140", "src/vortex_connection.c:2725-2792"]}
{"id": "C249", "title": "A reconnect releases what the session before it allocated", "statement": "However many times a connection is made again, the memory it holds is that of one session: the local address and port of the earlier session are released.", "quantifier": "for all numbers of reconnects", "why_tests_cant": "unbounded runs", "anchors": ["src/vortex_connection.c:2113-2114", "src/vortex_connection.c:2725-2792"]}
{"id": "C250", "title": "Text of the peer is never a format", "statement": "When an error is recorded with text the peer sent (a frame without trailer, greetings that are not a reply, the server name asked), the text is recorded as it came and no conversion in it is performed, whether the log is on or not.", "quantifier": "every text, every connection and every setting of the log", "why_tests_cant": "a peer chooses the bytes; tests send well formed ones and seldom with the log on", "anchors": ["src/vortex_connection.c:__vortex_connection_shutdown_and_record_error", "src/vortex_frame_factory.c:vortex_frame_get_next", "src/vortex_greetings.c:vortex_greetings_process", "src/vortex.c:_vortex_log_common"]}
{"id": "C251", "title": "The log shows the levels the last filter leaves", "statement": "A message comes out if and only if the log is enabled and its level is not named in the last call to vortex_log_filter_level; NULL shows them all.", "quantifier": "every level, text of filter, message and previous settings", "why_tests_cant": "the state of the filter outlives each call and its bits are combined with the ones before", "anchors": ["src/vortex.c:vortex_log_filter_level", "src/vortex.c:vortex_log_filter_is_enabled", "src/vortex.c:_vortex_log_common"]}
{"id": "C252", "title": "Each log handler gets the message and arguments it can use", "statement": "With vortex_log_set_handler, vortex_log_set_handler_full or both, each handler gets every message once with arguments it may expand; with the prepared log, the final text.", "quantifier": "every message, arguments and set of handlers", "why_tests_cant": "a list of arguments read twice goes wrong only on some platforms and arguments", "anchors": ["src/vortex.c:vortex_log_set_handler", "src/vortex.c:vortex_log_set_handler_full", "src/vortex.c:vortex_log_set_prepare_log", "src/vortex.c:_vortex_log_common"]}
{"id": "C253", "title": "The settings of the log are the ones given", "statement": "After vortex_log_enable, vortex_color_log_enable and vortex_log_acquire_mutex the setting is the value given, whatever the environment has; without a call, the environment decides.", "quantifier": "every value, environment and previous settings", "why_tests_cant": "depends on the environment of the process and on the order of calls", "anchors": ["src/vortex.c:vortex_log_enable", "src/vortex.c:vortex_log_is_enabled", "src/vortex.c:vortex_color_log_enable", "src/vortex.c:vortex_color_log_is_enabled", "src/vortex.c:vortex_log_acquire_mutex"]}
{"id": "C254", "title": "A configuration accepted is in force", "statement": "When vortex_conf_set returns true vortex_conf_get returns the value set and no other item changes; when it returns false nothing changes and only because the system refused it.", "quantifier": "every item, value and state of the configuration", "why_tests_cant": "tests set one value; the ones refused and the limits of the system depend on the host", "anchors": ["src/vortex.c:vortex_conf_set", "src/vortex.c:vortex_conf_get"]}
{"id": "C255", "title": "A log always ends", "statement": "A call that logs returns, also when it is made from a log handler.", "quantifier": "every setting of the log and every message", "why_tests_cant": "a deadlock needs the mutex of the log, asked for explicitly, and a handler that logs", "anchors": ["src/vortex.c:_vortex_log_common", "src/vortex.c:vortex_log_acquire_mutex"]}
{"id": "C256", "title": "What the transport holds is read without waiting for the socket", "statement": "Over TLS or WebSocket, each time the reader reads a connection it goes on until the transport holds nothing, unless the connection closes or is no longer watched; and it always ends.", "quantifier": "every content of the socket and of the transport, cut in records at any byte, every state of the reader and both transports", "why_tests_cant": "the socket does not tell what the transport holds: it depends on how the peer groups its bytes in records", "anchors": ["src/vortex_reader.c:__vortex_reader_process_socket_pending", "tls/vortex_tls.c:vortex_tls_ssl_read", "web-socket/vortex_websocket.c:vortex_websocket_read"]}
{"id": "C257", "title": "Frames over TLS and WebSocket are those sent", "statement": "Whatever the way the bytes of the frames are grouped in records, and the records in arrivals, the frames delivered are those sent, in order, and nothing stays in the transport.", "quantifier": "every list of frames, every cut in records and every grouping of the records in arrivals", "why_tests_cant": "all the cuts of a stream in records cannot be tried", "anchors": ["src/vortex_reader.c:__vortex_reader_process_socket_pending", "src/vortex_frame_factory.c:vortex_frame_get_next", "tls/vortex_tls.c:vortex_tls_ssl_read"]}
{"id": "C258", "title": "A record that arrives in pieces is like one that arrives at once", "statement": "When a piece of a record makes the socket readable and gives no data the connection stays up and what was read of the frame is kept.", "quantifier": "every state of the reader of a connection", "why_tests_cant": "the network decides where a TLS record is cut; on the loopback of the tests records come whole", "anchors": ["src/vortex_frame_factory.c:vortex_frame_get_next", "tls/vortex_tls.c:vortex_tls_ssl_read", "web-socket/vortex_websocket.c:vortex_websocket_read"]}
{"id": "C259", "title": "The greetings are read whatever their records", "statement": "A client that waits for the greetings over TLS or WebSocket receives them, and what follows them, whatever the records and the frames they come in.", "quantifier": "every cut in records, and greetings in one or more frames", "why_tests_cant": "needs a peer that puts several frames in one record", "anchors": ["src/vortex_greetings.c:vortex_greetings_client_process", "src/vortex_connection.c:vortex_connection_do_greetings_exchange"]}
{"id": "C260", "title": "The setup of an external transport lives as long as something uses it", "statement": "While the user, or a connection created with it, holds a VortexExternalSetup it is not freed, and it is freed when the last of them ends; the mutexes destroyed are mutexes created.", "quantifier": "every sequence of references, connections created and freed and handlers called over one setup", "why_tests_cant": "needs each interleaving of frees of connections and of calls; a double free may show nothing in a test", "anchors": ["external/vortex_external.c:vortex_external_setup_unref", "external/vortex_external.c:vortex_external_connection_new", "external/vortex_external.c:__vortex_external_data_release"]}
{"id": "C261", "title": "With VORTEX_EXTERNAL_CONF_MUTEX_IO the handlers are not called at the same time", "statement": "Once the mutex is configured there is at most one send or receive handler of the user running over the connections of a setup, and what waits for it gets it.", "quantifier": "every interleaving of the reader, the sequencer and the user, with created and accepted connections", "why_tests_cant": "depends on the interleaving of threads; a test that sees no overlap shows one interleaving", "anchors": ["external/vortex_external.c:__vortex_external_send_handler", "external/vortex_external.c:__vortex_external_received_handler", "external/vortex_external.c:__vortex_external_listener_on_accept", "external/vortex_external.c:vortex_external_setup_conf"]}
{"id": "C262", "title": "What a new external connection returns and tells", "statement": "vortex_external_connection_new returns NULL only when no connection could be created; the setup is given to the connection exactly when one is returned; the prepare handler is called once; with on_connected the connection is told there; nothing is lost.", "quantifier": "every session, setup, handlers and failure", "why_tests_cant": "the failures of memory and of creation are not produced by tests", "anchors": ["external/vortex_external.c:vortex_external_connection_new"]}
{"id": "C263", "title": "The host and port configured are those reported", "statement": "A connection created with a setup that has VORTEX_EXTERNAL_CONF_HOST or VORTEX_EXTERNAL_CONF_PORT reports them in vortex_connection_get_host and vortex_connection_get_port.", "quantifier": "every setup", "why_tests_cant": "that no path gives the values configured is a statement over every call", "anchors": ["external/vortex_external.c:vortex_external_setup_conf", "external/vortex_external.c:vortex_external_connection_new", "src/vortex_connection.c:vortex_connection_new_empty_from_connection2"]}
{"id": "C264", "title": "An external connection or listener closes only its descriptor", "statement": "The descriptors closed by a connection or a listener over an external transport are its own, once; a number the system gave again to something else is not closed.", "quantifier": "every interleaving of the shutdown, the free and descriptors opened by the rest of the process", "why_tests_cant": "the number has to be given again between the shutdown and the free", "anchors": ["external/vortex_external.c:__vortex_external_listener_data_release", "external/vortex_external.c:vortex_external_listener_new", "src/vortex_connection.c:__vortex_connection_shutdown_and_record_error"]}
{"id": "C265", "title": "Python on-close handlers and their handles are safe to use", "statement": "A function given to connection.set_on_close is called once, with its data, when that connection is closed, unless its vortex.Handle was given to remove_on_close before; a removed one is never called, and what is kept for it is released once. Using a handle late, through another vortex.Connection or while the connection is being closed touches no memory already released.", "quantifier": "every interleaving of set_on_close, remove_on_close, the close of connections and the threads that call the handlers", "why_tests_cant": "the windows are between two threads that wait for the interpreter, and memory released often still reads well", "anchors": ["py-vortex/src/py_vortex_connection.c:py_vortex_connection_set_on_close", "py-vortex/src/py_vortex_connection.c:py_vortex_connection_remove_on_close", "py-vortex/src/py_vortex_connection.c:py_vortex_connection_set_on_close_handler"]}
{"id": "C266", "title": "A vortex.Connection never uses a connection that was freed", "statement": "Whatever order a program wraps, closes, shuts down and collects the objects of a connection in, and whenever the peer or the reader drop it, the connection is freed exactly when its last reference goes and is not touched after.", "quantifier": "every sequence of wrap, close, shutdown, skip_conn_close, collection, loss and reader steps, for connections created, accepted and listeners", "why_tests_cant": "the order in which the interpreter collects objects is not under the control of a test", "anchors": ["py-vortex/src/py_vortex_connection.c:py_vortex_connection_close", "py-vortex/src/py_vortex_connection.c:py_vortex_connection_dealloc", "py-vortex/src/py_vortex.c:py_vortex_create_listener"]}
{"id": "C267", "title": "Collected vortex.Connection objects release their connection", "statement": "Once every vortex.Connection of a connection was collected and the reader left it, the connection is freed.", "quantifier": "every sequence of wrap, close, shutdown, collection, loss and reader steps", "why_tests_cant": "a leak shows in no result of the API", "anchors": ["py-vortex/src/py_vortex_connection.c:py_vortex_connection_close", "py-vortex/src/py_vortex_connection.c:py_vortex_connection_dealloc", "py-vortex/src/py_vortex_connection.c:py_vortex_connection_find_reference"]}
{"id": "C268", "title": "vortex.AsyncQueue returns what was pushed, in order, and balances the references", "statement": "Objects come out of a vortex.AsyncQueue once, in the order they were pushed; the references counted by an object are those of the program plus one for each time it is in the queue; collecting the queue releases what is inside; None is returned by timedpop only when the time expired.", "quantifier": "every sequence of push, pop, timedpop, get_reply and collections, every object and every initial count", "why_tests_cant": "a reference lost or taken twice is only seen much later, if at all", "anchors": ["py-vortex/src/py_vortex_async_queue.c:py_vortex_async_queue_push", "py-vortex/src/py_vortex_async_queue.c:py_vortex_async_queue_pop", "py-vortex/src/py_vortex_async_queue.c:py_vortex_async_queue_timedpop", "py-vortex/src/py_vortex_async_queue.c:py_vortex_async_queue_dealloc"]}
{"id": "C269", "title": "channel.get_reply on a broken connection is safe", "statement": "channel.get_reply returns None when the connection is closed while it waits, whatever else uses the queue; the queue can be used after, and frames returned are released by the last one that has them.", "quantifier": "every interleaving of frames pushed, the close of the connection and the calls that wait", "why_tests_cant": "the connection has to be closed between a frame pushed and the thread that waits for it", "anchors": ["py-vortex/src/py_vortex_channel.c:py_vortex_channel_get_reply", "src/vortex_channel.c:vortex_channel_get_reply", "py-vortex/src/py_vortex_frame.c:py_vortex_frame_create"]}
{"id": "C270", "title": "Every frame reaches the Python handler configured", "statement": "Each frame of a channel is given once to the function of the last set_frame_received (or of open_channel) with its data, and setting or removing the handler at any time is safe.", "quantifier": "every interleaving of set_frame_received, frames and threads that wait for the interpreter", "why_tests_cant": "frames have to arrive inside the call that opens the channel or removes the handler", "anchors": ["py-vortex/src/py_vortex_channel.c:py_vortex_channel_set_frame_received", "py-vortex/src/py_vortex_channel.c:py_vortex_channel_received", "py-vortex/src/py_vortex_connection.c:py_vortex_connection_open_channel"]}
{"id": "C271", "title": "The Python send methods send the content given", "statement": "send_msg, send_rpy, send_err and send_ans send the first size bytes of the content, all of it when the size is -1, and refuse sizes and contents that do not make sense without reading outside the content.", "quantifier": "every content and every size", "why_tests_cant": "only a few sizes can be tried, and reads past the end of a string go unnoticed", "anchors": ["py-vortex/src/py_vortex_channel.c:py_vortex_channel_send_msg", "py-vortex/src/py_vortex_channel.c:py_vortex_channel_send_rpy", "src/vortex_channel.c:vortex_channel_send_msg"]}
{"id": "C272", "title": "A Python event finishes cleanly", "statement": "A function installed by ctx.new_event is not called after it returned True, raised or was removed (but for a call already on its way), and what is kept for it, including a reference to the vortex.Ctx, is then released.", "quantifier": "every sequence of calls, returns, exceptions, removals and the end of the context", "why_tests_cant": "what is lost is a reference: the context is never freed and no call fails", "anchors": ["py-vortex/src/py_vortex_ctx.c:py_vortex_ctx_new_event", "py-vortex/src/py_vortex_ctx.c:py_vortex_ctx_bridge_event", "py-vortex/src/py_vortex_ctx.c:py_vortex_ctx_remove_event"]}
{"id": "C273", "title": "A WebSocket setup lives while somebody holds it", "statement": "A VortexWebsocketSetup stays valid while the program holds a reference or a connection is being created with it, is released with the last one, keeps the last value of each item and leaves no memory behind.", "quantifier": "every sequence of ref, unref, configuration and connections created, ended in any order", "why_tests_cant": "a leak or a setup released while a thread still connects shows only under some schedules", "anchors": ["web-socket/vortex_websocket.c:vortex_websocket_setup_unref", "web-socket/vortex_websocket.c:vortex_websocket_setup_conf", "web-socket/vortex_websocket.c:vortex_websocket_connection_new"]}
{"id": "C274", "title": "Certificates are verified unless the program says otherwise", "statement": "A WebSocket connection with TLS verifies the certificate of the server unless VORTEX_WEBSOCKET_CONF_CERT_VERIFY was configured to false.", "quantifier": "every configuration of the setup and every outcome", "why_tests_cant": "tests use self-signed certificates with the verification disabled, so they pass either way", "anchors": ["web-socket/vortex_websocket.c:vortex_websocket_setup_conf", "web-socket/vortex_websocket.c:__vortex_websocket_connection_new"]}
{"id": "C275", "title": "The handshake of a WebSocket connection respects the connect timeout", "statement": "vortex_websocket_connection_new waits for the handshake no more than the connect timeout of the context, or 60 seconds if there is none.", "quantifier": "every timeout in microseconds", "why_tests_cant": "a server that stalls for each timeout would be needed", "anchors": ["web-socket/vortex_websocket.c:__vortex_websocket_connection_new"]}
{"id": "C276", "title": "The outcome of a WebSocket connection is told once, with what was asked", "statement": "vortex_websocket_connection_new returns the connection or gives it to the handler, once; the Host and Origin headers, the server name, the proxy, the options and TLS are the ones configured.", "quantifier": "every setup, host, timeout, outcome of noPoll and of the greetings", "why_tests_cant": "the peer has to fail at each step, and what is not used or not released does not show", "anchors": ["web-socket/vortex_websocket.c:__vortex_websocket_connection_new", "web-socket/vortex_websocket.c:vortex_websocket_connection_new", "src/vortex_connection.c:vortex_connection_set_server_name"]}
{"id": "C277", "title": "An accepted WebSocket connection is known by the host it asked for", "statement": "The server name of a connection accepted over WebSocket is the host of its Host header without the port, it is marked as TLS exactly if it is, one without a Host header is shut down, and other connections are not changed.", "quantifier": "every connection, header and role", "why_tests_cant": "headers are written by the peer", "anchors": ["web-socket/vortex_websocket.c:vortex_websocket_listener_post_actions", "web-socket/vortex_websocket.c:__vortex_websocket_setup_server_name_from_header"]}
{"id": "C278", "title": "WebSocket listeners accept as other listeners do", "statement": "A connection over WebSocket is accepted or refused by the accept handlers without using released memory, and the handler given to vortex_websocket_listener_new is called when the listener is ready.", "quantifier": "every connection and every answer of the accept handlers", "why_tests_cant": "a use after release often goes unnoticed, and tests accept all connections", "anchors": ["web-socket/vortex_websocket.c:vortex_websocket_listener_accept", "web-socket/vortex_websocket.c:vortex_websocket_listener_new", "src/vortex_listener.c:vortex_listener_accept_connection"]}
{"id": "C279", "title": "WebSocket peers are recognised on the port of a BEEP listener", "statement": "On a shared port, a peer that begins with GET or with a TLS handshake is served as WebSocket and any other as BEEP, and nothing is kept for a peer whose handshake fails.", "quantifier": "every first bytes of a connection and every outcome of noPoll", "why_tests_cant": "the first bytes depend on the TLS library of each client", "anchors": ["web-socket/vortex_websocket.c:__vortex_websocket_detect_and_prepare_transport", "src/vortex_listener.c:__vortex_listener_check_port_sharing"]}
{"id": "C280", "title": "XML-RPC values used as documented never touch released memory", "statement": "A program that uses the values, structs, arrays, calls and responses it owns, or those that live inside them, and gives each to one container at most, never uses released memory and finds valid all it owns and all that is inside.", "quantifier": "every sequence of operations of such a program", "why_tests_cant": "the sequences of operations and the sharing of structs and arrays are unbounded, and a use after release often goes unnoticed", "anchors": ["xml-rpc/vortex_xml_rpc_types.c:vortex_xml_rpc_method_value_free", "xml-rpc/vortex_xml_rpc_types.c:vortex_xml_rpc_struct_free", "xml-rpc/vortex_xml_rpc_types.c:vortex_xml_rpc_array_free"]}
{"id": "C281", "title": "XML-RPC values are released completely", "statement": "Once a program has released all it owned and the channel has ended, no value, struct, member, array, call, response or text is left.", "quantifier": "every sequence of operations of a program that uses what it owns", "why_tests_cant": "leaks do not show in results, and depend on how values were shared", "anchors": ["xml-rpc/vortex_xml_rpc_types.c:vortex_xml_rpc_struct_free", "xml-rpc/vortex_xml_rpc_types.c:vortex_xml_rpc_array_free", "xml-rpc/vortex_xml_rpc_types.c:vortex_xml_rpc_method_response_free"]}
{"id": "C282", "title": "Values set in arrays and calls replace and release the old ones", "statement": "A value added or set at a position of an array is the one read there and the others are not changed; the value replaced by vortex_xml_rpc_array_set or vortex_xml_rpc_method_call_set_value is released, and those set by position are released with the container.", "quantifier": "every array, position and value", "why_tests_cant": "the order of additions and replacements is the program's, and a leak does not show", "anchors": ["xml-rpc/vortex_xml_rpc_types.c:vortex_xml_rpc_array_set", "xml-rpc/vortex_xml_rpc_types.c:vortex_xml_rpc_array_add", "xml-rpc/vortex_xml_rpc_types.c:vortex_xml_rpc_method_call_set_value"]}
{"id": "C283", "title": "The copy of an XML-RPC value is independent", "statement": "vortex_xml_rpc_method_value_copy gives a new value that holds the same, with a text of its own, and that goes on holding it when the original or anything else is released.", "quantifier": "every value and every later release", "why_tests_cant": "the values and the order of the releases are unbounded", "anchors": ["xml-rpc/vortex_xml_rpc_types.c:vortex_xml_rpc_method_value_copy"]}
{"id": "C284", "title": "Structs are accepted exactly if their members are the expected ones", "statement": "vortex_xml_rpc_struct_check_member_names and check_member_types return true exactly if the names, or the types, given are those of the members, in order, without an error for any struct.", "quantifier": "every struct and every list of names or types", "why_tests_cant": "structs come from the peer with any members", "anchors": ["xml-rpc/vortex_xml_rpc_types.c:vortex_xml_rpc_struct_check_member_names", "xml-rpc/vortex_xml_rpc_types.c:vortex_xml_rpc_struct_check_member_types"]}
{"id": "C285", "title": "The result of a generated XML-RPC stub can be used after the response is released", "statement": "The functions vortex_xml_rpc_unmarshall_*_sync release the response and give the program a value, struct or array that is still valid, or the code and the text of the fault, valid until the program releases it or the channel ends.", "quantifier": "every response and every sequence of faults", "why_tests_cant": "what the server answers is not the client's choice, and released memory often still reads well", "anchors": ["xml-rpc/vortex_xml_rpc.c:vortex_xml_rpc_unmarshall_string_sync", "xml-rpc/vortex_xml_rpc.c:vortex_xml_rpc_unmarshall_struct_sync", "xml-rpc/vortex_xml_rpc.c:vortex_xml_rpc_unmarshall_array_sync"]}
{"id": "C286", "title": "A function of the Lua bindings runs only with the parameters it describes", "statement": "lua_vortex_check_params accepts a call if and only if every obligatory parameter is there with its type, followed by optional parameters of their types and by nothing else; any other call raises an error in the script.", "quantifier": "every description and every list of Lua values", "why_tests_cant": "the calls a script can make are unbounded, and tests only make the right ones", "anchors": ["lua-vortex/src/lua-vortex.c:lua_vortex_check_params", "lua-vortex/src/lua-vortex-ctx.c:lua_vortex_ctx_check_internal"]}
{"id": "C287", "title": "A vortex.asyncqueue gives back the Lua values pushed, in order", "statement": "Every value pushed to a vortex.asyncqueue comes out of pop or timedpop as it was, in order; the queue keeps alive the values it holds and no others, and none once it is collected.", "quantifier": "every sequence of pushes and pops of Lua values", "why_tests_cant": "it depends on the references handed out and reused by all the operations before", "anchors": ["lua-vortex/src/lua-vortex-object.c:lua_vortex_object_new_from_stack", "lua-vortex/src/lua-vortex-object.c:lua_vortex_object_push", "lua-vortex/src/lua-vortex-asyncqueue.c:lua_vortex_asyncqueue_pop"]}
{"id": "C288", "title": "One thread at a time runs Lua", "statement": "However handlers start, end, wait in a queue or register other handlers, at most one thread runs code of a Lua interpreter at a time, no mutex is unlocked by a thread that does not hold it, and a thread that waits in a queue lets the others run.", "quantifier": "every interleaving of the main program and of handlers in any number of threads", "why_tests_cant": "races between threads are not reproduced by running the code", "anchors": ["lua-vortex/src/lua-vortex.c:lua_vortex_lock", "lua-vortex/src/lua-vortex.c:lua_vortex_unlock", "lua-vortex/src/lua-vortex.c:lua_vortex_wait_listeners", "lua-vortex/src/lua-vortex-asyncqueue.c:lua_vortex_asyncqueue_pop"]}
{"id": "C289", "title": "vortex.event_fd and vortex.wait_events tell that a handler waits", "statement": "While a handler waits for the interpreter the descriptor of vortex.event_fd is readable, and it is not when there is none; vortex.wait_events waits at most the time given, or for ever with 0, and says whether a handler waits.", "quantifier": "every interleaving of handlers, and every time", "why_tests_cant": "it is about all the moments at which handlers and the main program can meet", "anchors": ["lua-vortex/src/lua-vortex.c:lua_vortex_event_fd", "lua-vortex/src/lua-vortex.c:lua_vortex_wait_events", "lua-vortex/src/lua-vortex.c:lua_vortex_lock"]}
{"id": "C290", "title": "What a Lua handler returns is what the library gets", "statement": "The boolean returned by an event, start or TLS accept handler written in Lua is the answer the library acts on, false when it fails or returns something else, for any number of calls in a thread.", "quantifier": "every sequence of handler calls in a thread", "why_tests_cant": "a test makes few calls in a thread; the stack of the thread keeps what earlier calls left", "anchors": ["lua-vortex/src/lua-vortex-ctx.c:lua_vortex_ctx_bridge_event", "lua-vortex/src/lua-vortex-tls.c:lua_vortex_tls_bridge_accept_handler"]}
{"id": "C291", "title": "Each thread runs its Lua handlers on a state of its own", "statement": "The handlers a thread runs always use the same Lua state, and two threads never use the same one.", "quantifier": "every sequence of threads", "why_tests_cant": "it depends on the identifiers the system gives to the threads", "anchors": ["lua-vortex/src/lua-vortex.c:lua_vortex_create_thread"]}
{"id": "C292", "title": "A Lua channel sends the content it is given", "statement": "channel:send_msg with a size sends that many first bytes of the string, and with -1 the whole string; nothing outside of the string is read.", "quantifier": "every string and every size", "why_tests_cant": "sizes and contents are unbounded", "anchors": ["lua-vortex/src/lua-vortex-channel.c:lua_vortex_channel_send_msg"]}
{"id": "C293", "title": "A connection lives while a Lua object points to it, and no longer", "statement": "However Lua objects of a connection are made, closed, secured with TLS and collected, the connection is not used after it was released, and it is released once no object and no part of the library has it.", "quantifier": "every sequence of events on the objects of a connection", "why_tests_cant": "when objects are collected is up to the Lua collector", "anchors": ["lua-vortex/src/lua-vortex-connection.c:lua_vortex_connection_gc", "lua-vortex/src/lua-vortex-connection.c:lua_vortex_connection_new_ref", "lua-vortex/src/lua-vortex-tls.c:lua_vortex_tls_start_tls"]}
{"id": "C294", "title": "vortex.sasl finds the mechanism named, and accepts who the handler accepts", "statement": "A mechanism is found by its full URI or by its name in any case, and no other name stands for one; a client is accepted without a password check only when the handler returns true.", "quantifier": "every name and every answer of the handler", "why_tests_cant": "the names are unbounded", "anchors": ["lua-vortex/src/lua-vortex-sasl.c:lua_vortex_sasl_normalize_profile_name", "lua-vortex/src/lua-vortex-sasl.c:lua_vortex_sasl_auth_handler_bridge"]}
{"id": "C295", "title": "Data attached to a context, a connection or a channel is given back as last stored", "statement": "After any sequence of vortex_ctx_set_data_full, vortex_connection_set_data_full, vortex_channel_set_data_full, the functions that delete keys, and connections taking the place of others (TLS, SASL), get_data gives the value last stored under a key with the same text, or NULL when there is none or it was removed; the connection that takes the place of another keeps all its data but the mark 'being_closed', and the other has none.", "quantifier": "for every sequence of operations over any number of contexts, connections and channels, all keys, values and destroy functions, by an application that gives each block once and keeps alive the keys it stores without a destroy function", "why_tests_cant": "Tests store a few constant keys and read them; the property is about every interleaving of stores, removals, renewals and releases over several holders, with keys compared by content.", "anchors": ["src/vortex_connection.c:vortex_connection_set_data_full", "src/vortex_connection.c:vortex_connection_get_data", "src/vortex_channel.c:vortex_channel_set_data_full", "src/vortex_ctx.c:vortex_ctx_set_data_full", "src/vortex_hash.c:vortex_hash_replace_full"]}
{"id": "C296", "title": "Data stored with destroy functions is freed exactly once", "statement": "Each key or value stored with a destroy function is freed when it is replaced, removed or its holder ends, never twice and never while it is stored; when all the holders are released everything given and not taken back with the functions that delete keys has been freed.", "quantifier": "for every sequence of operations over any number of holders by an application that gives each block once", "why_tests_cant": "A double free or a leak only shows for particular orders of stores, removals, moves and releases, often at the end of the process.", "anchors": ["src/vortex_hash.c:vortex_hash_replace_full", "src/vortex_hash.c:vortex_hash_remove", "src/vortex_hash.c:vortex_hash_destroy", "src/vortex_connection.c:vortex_connection_set_data_full"]}
{"id": "C297", "title": "Removing data with a NULL value releases the key given for it", "statement": "vortex_connection_set_data_full (and those of contexts and channels) with a NULL value and a key with its destroy function ends with that key released.", "quantifier": "for every holder, key and destroy function", "why_tests_cant": "The leak is of a few bytes at each removal and no test looks at memory after removing with a key of its own.", "anchors": ["src/vortex_connection.c:vortex_connection_set_data_full", "src/vortex_channel.c:vortex_channel_set_data_full", "src/vortex_ctx.c:vortex_ctx_set_data_full", "src/vortex_hash.c:vortex_hash_remove"]}
{"id": "C298", "title": "Storing again the value that is stored keeps it", "statement": "Storing under a key the same pointer already stored there with a destroy function leaves it stored and valid.", "quantifier": "for every holder, key and value stored with a destroy function", "why_tests_cant": "Tests store a new value each time; storing the same pointer again works until it is read, and then depends on the allocator.", "anchors": ["src/vortex_hash.c:vortex_hash_replace_full", "src/vortex_connection.c:vortex_connection_set_data_full"]}
{"id": "C299", "title": "A value stored is valid until its key is stored again, removed or its holder ends", "statement": "Whatever is done with other keys and other holders, a value stored with a destroy function is not freed and get_data gives it, until the same key of the same holder is stored, removed or deleted, the holder is released, or another connection takes its place.", "quantifier": "for every history before and after the store, all keys, values and holders", "why_tests_cant": "The property is about all the operations that may come between a store and a read.", "anchors": ["src/vortex_connection.c:vortex_connection_get_data", "src/vortex_channel.c:vortex_channel_get_data", "src/vortex_hash.c:vortex_hash_lookup", "src/vortex_hash.c:vortex_hash_replace_full"]}
{"id": "C300", "title": "A value given by get_data can be used while another thread stores a new one", "statement": "The pointer get_data gave can be read although another thread stores a new value under the same key.", "quantifier": "for every holder, key, and pair of threads", "why_tests_cant": "The window is between the lookup and the use of what it gave; tests with one thread never meet it.", "anchors": ["src/vortex_connection.c:vortex_connection_get_data", "src/vortex_hash.c:vortex_hash_lookup", "src/vortex_hash.c:vortex_hash_replace_full"]}
{"id": "C301", "title": "A command line is understood as it is written", "statement": "With options whose names are apart, a command line of options in the forms --name and -c, values and free words, with each option at most once and with what the program asks for, leaves exactly the options written defined, with the values written, the others untouched, and the free words in their order.", "quantifier": "for every set of installed options and every command line of that form", "why_tests_cant": "A test parses a few lines; the mix of long and short names, values and free words has no bound.", "anchors": ["xml-rpc-gen/exarg.c:exarg_parse", "xml-rpc-gen/exarg.c:exarg_is_argument", "xml-rpc-gen/exarg.c:exarg_lookup_node"]}
{"id": "C302", "title": "A wrong command line stops the program", "statement": "After any correct beginning, an option that is not installed, one given for the second time, and one with no value or followed by another option stop the program, with the message for each; so does a free word when they are disabled.", "quantifier": "for every set of options, correct beginning and rest of the line", "why_tests_cant": "The wrong word may be anywhere, after any state of the parser.", "anchors": ["xml-rpc-gen/exarg.c:exarg_parse", "xml-rpc-gen/exarg.c:exarg_check_argument_value", "xml-rpc-gen/exarg.c:exarg_accept_free_args"]}
{"id": "C303", "title": "Obligatory arguments and dependencies are there when parsing returns", "statement": "When exarg_parse returns every obligatory argument is defined, and so is every argument on which a defined one depends.", "quantifier": "for every set of options, dependencies, exclusions and command line", "why_tests_cant": "It must hold for every combination of given options; the failing one needs an exclusion not kept, before the dependency in the list.", "anchors": ["xml-rpc-gen/exarg.c:__exarg_parse_check_non_optional", "xml-rpc-gen/exarg.c:__exarg_parse_check_depends", "xml-rpc-gen/exarg.c:exarg_add_dependency"]}
{"id": "C304", "title": "Arguments that exclude each other are never both defined after parsing", "statement": "Two arguments related by exarg_add_exclusion can't be defined at the same time when exarg_parse returns.", "quantifier": "for every set of options and command line", "why_tests_cant": "A test that looks at the message printed does not see that the program goes on.", "anchors": ["xml-rpc-gen/exarg.c:exarg_add_exclusion", "xml-rpc-gen/exarg.c:__exarg_parse_check_depends"]}
{"id": "C305", "title": "Every option installed can be given, with any number", "statement": "An option that exarg_install_arg accepted can be given on the command line, and an option with an integer accepts any integer.", "quantifier": "for every name and integer", "why_tests_cant": "The names and numbers that fail are few among all; nobody lists them.", "anchors": ["xml-rpc-gen/exarg.c:exarg_check_help_argument", "xml-rpc-gen/exarg.c:exarg_check_argument_value", "xml-rpc-gen/exarg.c:exarg_is_argument"]}
{"id": "C306", "title": "A file name is a free word wherever it is on the line", "statement": "A word that is not written as an option of the installed ones is a free parameter, whatever its place on the line.", "quantifier": "for every word and place", "why_tests_cant": "It depends on what came before on the line.", "anchors": ["xml-rpc-gen/exarg.c:exarg_is_argument", "xml-rpc-gen/exarg.c:exarg_get_params"]}
{"id": "C307", "title": "Two installed options never share a name", "statement": "exarg_install_arg stops the program if the long or the short name is that of an option installed before, and otherwise adds the option at the end.", "quantifier": "for every set of options and every name", "why_tests_cant": "Clashes between long and short names depend on the order of installation.", "anchors": ["xml-rpc-gen/exarg.c:exarg_install_arg", "xml-rpc-gen/exarg.c:__exarg_check_short_arg"]}
{"id": "C308", "title": "Parsing reads only the words of the command line", "statement": "exarg_parse follows no null pointer and gives memcmp no length beyond the end of a word.", "quantifier": "for every set of options and command line", "why_tests_cant": "A read of some bytes after a short string shows nothing in a test.", "anchors": ["xml-rpc-gen/exarg.c:exarg_parse", "xml-rpc-gen/exarg.c:exarg_get_argument", "xml-rpc-gen/exarg.c:exarg_check_help_argument"]}
{"id": "C309", "title": "A channel lives exactly as long as something holds it", "statement": "After any calls that create, add to, attach to, detach from, remove from and close channel pools, start and close channels, and take and release references, the reference count of each channel is the number of its holders (the connection, the application, each pool that has it), and it has been freed exactly when it has none.", "quantifier": "for every sequence of calls that returns, with any number of pools and channels", "why_tests_cant": "A reference lost or counted twice shows only in some orders of attach, detach, close and unref.", "anchors": ["src/vortex_channel_pool.c:vortex_channel_pool_attach", "src/vortex_channel_pool.c:vortex_channel_pool_deattach", "src/vortex_channel_pool.c:__vortex_channel_pool_remove", "src/vortex_channel.c:vortex_channel_unref2"]}
{"id": "C310", "title": "Calls on living pools and channels never use freed memory nor hang", "statement": "Calls on pools and channels that were not freed return and touch no freed memory.", "quantifier": "for every sequence of calls on living pools and channels", "why_tests_cant": "The dangling pointer of a channel to its pool is followed only when the last reference is released.", "anchors": ["src/vortex_channel_pool.c:vortex_channel_pool_close", "src/vortex_channel.c:vortex_channel_free", "src/vortex_channel.c:vortex_channel_unref2"]}
{"id": "C311", "title": "A channel detached from a pool does not depend on it", "statement": "Once a channel is detached from its pool the pool can be closed, and the channel closed later, with no use of the memory of the pool.", "quantifier": "for every channel and pool", "why_tests_cant": "A use after free of a few bytes is often silent.", "anchors": ["src/vortex_channel_pool.c:vortex_channel_pool_deattach", "src/vortex_channel.c:vortex_channel_free"]}
{"id": "C312", "title": "Detaching a channel from its pool returns", "statement": "vortex_channel_pool_deattach returns for every channel of the pool, also if the peer has closed it.", "quantifier": "for every pool and channel of it", "why_tests_cant": "It needs the peer to have closed the channel first.", "anchors": ["src/vortex_channel_pool.c:vortex_channel_pool_deattach", "src/vortex_connection.c:vortex_connection_lock_channel_pool"]}
{"id": "C313", "title": "A pool counts open channels only", "statement": "vortex_channel_pool_get_num gives the number of channels of the pool that are still open.", "quantifier": "for every pool after any calls", "why_tests_cant": "Tests close channels through their pool.", "anchors": ["src/vortex_channel_pool.c:vortex_channel_pool_get_num", "src/vortex_channel.c:vortex_channel_close"]}
{"id": "C314", "title": "vortex_channel_get_pool names the pool that has the channel", "statement": "vortex_channel_get_pool returns a pool exactly when that pool has the channel.", "quantifier": "for every channel after attach and detach", "why_tests_cant": "Each function alone behaves as documented.", "anchors": ["src/vortex_channel.c:vortex_channel_get_pool", "src/vortex_channel_pool.c:vortex_channel_pool_attach", "src/vortex_channel_pool.c:vortex_channel_pool_deattach"]}
{"id": "C315", "title": "Creating, adding, removing and closing change only what they name", "statement": "A new pool has the channels asked for; add gives that many more; remove takes the first ready channels, up to the number asked for, each closed if its peer accepts and left without a pool; close does so with all ready ones, lets the others go and ends the pool. Other pools and other channels stay as they were.", "quantifier": "for every state reached and every number of channels", "why_tests_cant": "It depends on which channels are ready and their order in the pool.", "anchors": ["src/vortex_channel_pool.c:vortex_channel_pool_add", "src/vortex_channel_pool.c:vortex_channel_pool_remove", "src/vortex_channel_pool.c:__vortex_channel_pool_close_common"]}
{"id": "C316", "title": "Removing channels from a pool returns whatever their handlers do", "statement": "vortex_channel_pool_remove and vortex_channel_pool_close return, also if the handlers run by the close of a channel call functions of channel pools.", "quantifier": "for every pool and handlers", "why_tests_cant": "It needs a handler that uses the pool whose channels are being closed.", "anchors": ["src/vortex_channel_pool.c:vortex_channel_pool_remove", "src/vortex_channel_pool.c:__vortex_channel_pool_remove", "src/vortex_connection.c:vortex_connection_lock_channel_pool"]}
{"id": "C317", "title": "Asking for an I/O mechanism installs all of it or nothing", "statement": "vortex_io_waiting_use returns true exactly for the mechanisms compiled in, after which vortex_io_waiting_get_current tells it and all the handlers are its own; if it returns false nothing changes.", "quantifier": "for every build, every state and every number given as the type", "why_tests_cant": "The table is observable only through how sockets are waited for.", "anchors": ["src/vortex_io.c:vortex_io_waiting_use", "src/vortex_io.c:vortex_io_waiting_is_available", "src/vortex_io.c:vortex_io_init"]}
{"id": "C318", "title": "A set of sockets is only given to the handlers that made it", "statement": "The I/O mechanism can be changed at any time, with the reader running and other threads connecting and writing: each set of sockets is used and released by the mechanism that made it.", "quantifier": "for every order of changes, turns of the reader and waits of other threads", "why_tests_cant": "It needs a change of mechanism between two calls of another thread.", "anchors": ["src/vortex_io.c:vortex_io_waiting_use", "src/vortex_connection.c:__vortex_connection_wait_on", "src/vortex_reader.c:__vortex_reader_change_io_mech"]}
{"id": "C319", "title": "The reader always has the handlers to see which sockets changed", "statement": "No handler the reader needs is ever missing: those of sets are never NULL, and there is either is_set or both have_dispatch and dispatch, and each turn of the reader sees the sockets that changed.", "quantifier": "for every sequence of changes and of handlers set, also with NULL", "why_tests_cant": "Each combination of handlers needs its own run.", "anchors": ["src/vortex_io.c:vortex_io_waiting_set_have_dispatch", "src/vortex_io.c:vortex_io_waiting_set_is_set_fd_group", "src/vortex_io.c:vortex_io_waiting_invoke_dispatch", "src/vortex_reader.c:__vortex_reader_run"]}
{"id": "C320", "title": "Setting one I/O handler changes that one only", "statement": "Each vortex_io_waiting_set_* function installs the handler given and leaves the other handlers, the current mechanism and the sets as they were; NULL changes nothing.", "quantifier": "for every handler and state", "why_tests_cant": "A handler stored in the wrong field shows only when it is used.", "anchors": ["src/vortex_io.c:vortex_io_waiting_set_create_fd_group", "src/vortex_io.c:vortex_io_waiting_set_wait_on_fd_group", "src/vortex_io.c:vortex_io_waiting_set_dispatch"]}
{"id": "C321", "title": "Two changes of mechanism at once leave one of the two", "statement": "When two threads call vortex_io_waiting_use at the same time, the context ends with all the handlers of one of the two mechanisms.", "quantifier": "for every interleaving of the two calls", "why_tests_cant": "It depends on the interleaving.", "anchors": ["src/vortex_io.c:vortex_io_waiting_use"]}
{"id": "C322", "title": "A pipe that was made is two new descriptors", "statement": "When vortex_support_pipe returns 0 the two descriptors are different, were not open before, and are all that the call added to the open descriptors of the process.", "quantifier": "for every set of open descriptors and every sequence of answers of the kernel", "why_tests_cant": "The answers of the kernel (descriptors, in-progress connects) are many and most cannot be forced in a test.", "anchors": ["src/vortex_support.c:vortex_support_pipe"]}
{"id": "C323", "title": "A pipe that could not be made leaves nothing behind", "statement": "When vortex_support_pipe cannot make the pipe, whatever call of the kernel failed, it returns -1 and the process has the descriptors it had before.", "quantifier": "for every call of the kernel that may fail", "why_tests_cant": "Each failure has to be injected, and a leaked descriptor shows only after many.", "anchors": ["src/vortex_support.c:vortex_support_pipe"]}
{"id": "C324", "title": "The two ends of the pipe are of one connection", "statement": "When vortex_support_pipe returns 0, what is written in one descriptor is read from the other, whatever the other programs of the machine do.", "quantifier": "for every behaviour of the other programs of the machine", "why_tests_cant": "It needs a second program that connects to an ephemeral port in the moment between listen and connect.", "anchors": ["src/vortex_support.c:vortex_support_pipe", "src/vortex_listener.c:vortex_listener_accept"]}
{"id": "C325", "title": "The descriptor of events is a working one", "statement": "The descriptor vortex.event_fd gives is always the read side of a pipe whose other end the binding has, and once given it is given again.", "quantifier": "for every sequence of calls and every answer of the kernel", "why_tests_cant": "It needs a call that fails followed by one that does not.", "anchors": ["lua-vortex/src/lua-vortex.c:lua_vortex_event_fd", "lua-vortex/src/lua-vortex.c:__lua_vortex_event_fd_init_pipe"]}
{"id": "C326", "title": "Closing the interpreter gives back the descriptors of its pipe", "statement": "After any calls of vortex.event_fd, failed or not, releasing the lock of the interpreter leaves the open descriptors as they were before the first call.", "quantifier": "for every sequence of calls and every answer of the kernel", "why_tests_cant": "Failures of the kernel in all places and orders cannot be tried.", "anchors": ["lua-vortex/src/lua-vortex.c:lua_vortex_release_lock", "lua-vortex/src/lua-vortex.c:lua_vortex_event_fd"]}
{"id": "C327", "title": "Reading and writing over TLS tell what the transport did", "statement": "The receive and send handlers of a TLS connection return the octets moved, 0 when the peer closed, -1 for a failure and -2 when the operation has to be tried again; a call interrupted by a signal is repeated and not told.", "quantifier": "for every sequence of results of OpenSSL, any number of interruptions", "why_tests_cant": "The results of OpenSSL and their repetitions cannot all be forced.", "anchors": ["tls/vortex_tls.c:vortex_tls_ssl_read", "tls/vortex_tls.c:vortex_tls_ssl_write"]}
{"id": "C328", "title": "A TLS connection that fails does not touch the others of its thread", "statement": "What a thread that serves several TLS connections (the reader, the sequencer) gets from one of them does not depend on what happened with the others.", "quantifier": "for every sequence of reads and writes over any connections", "why_tests_cant": "It needs a protocol failure in one connection followed by a blocked operation in another on the same thread.", "anchors": ["tls/vortex_tls.c:vortex_tls_ssl_write", "tls/vortex_tls.c:vortex_tls_ssl_read", "tls/vortex_tls.c:vortex_tls_notify_failure_handler", "tls/vortex_tls.c:vortex_tls_log_ssl"]}
{"id": "C329", "title": "Reading and writing one TLS connection at once do not mix their results", "statement": "When one thread reads a TLS connection while another writes it, each call returns the result of its own operation.", "quantifier": "for every interleaving of the two", "why_tests_cant": "The window is between SSL_read and SSL_get_error, outside the mutex.", "anchors": ["tls/vortex_tls.c:vortex_tls_ssl_read", "tls/vortex_tls.c:vortex_tls_ssl_write"]}
{"id": "C330", "title": "A TLS read that has to wait does not end the connection", "statement": "When there is nothing to read yet on a TLS connection the library comes again later, whatever other threads do with the connection at that moment and whatever happened before.", "quantifier": "for every state of the error queue and every interleaving", "why_tests_cant": "It depends on the interleaving and on the history of the thread.", "anchors": ["tls/vortex_tls.c:vortex_tls_ssl_read", "src/vortex_frame_factory.c:vortex_frame_readline"]}
{"id": "C331", "title": "A connection asks for the serverName its options say", "statement": "The first channel of a connection asks for the serverName given with VORTEX_SERVERNAME_FEATURE; without one, for the name of the host, unless VORTEX_SERVERNAME_ACQUIRE is axl_false or the context has that disabled, which concern only the name of the host.", "quantifier": "for every list of options, in every order and with repetitions", "why_tests_cant": "The combinations of options, repeated and in any order, with the flag of the context.", "anchors": ["src/vortex_connection.c:vortex_connection_opts_get_serverName", "src/vortex_connection.c:__vortex_connection_opts_process", "src/vortex_connection.c:vortex_connection_do_greetings_exchange"]}
{"id": "C332", "title": "Options that are to be released are released once by the connection created", "statement": "Options made with vortex_connection_opts_default are freed by the creation they are given to, however it ends, and the connection keeps what they said.", "quantifier": "for every way in which the creation of a connection can end", "why_tests_cant": "Most of the ways to end need failures of the system at one moment.", "anchors": ["src/vortex_connection.c:vortex_connection_opts_default", "src/vortex_connection.c:vortex_connection_opts_check_and_release", "src/vortex_connection.c:__vortex_connection_new", "http/vortex_http.c:__vortex_http_connection_new"]}
{"id": "C333", "title": "Options can be used for several connections", "statement": "Options made with vortex_connection_opts_new and without release stay as they are through any number of creations, in a thread or not, and can be freed when the calls that create have returned.", "quantifier": "for every sequence of creations and every moment at which the threads run", "why_tests_cant": "It depends on when the thread of the pool runs.", "anchors": ["src/vortex_connection.c:vortex_connection_opts_new", "src/vortex_connection.c:vortex_connection_opts_free", "src/vortex_connection.c:vortex_connection_new_full_common"]}
{"id": "C334", "title": "vortex_connection_get_host_ip tells the IP of the connection", "statement": "The text returned is the IP address of the remote side, and for a master listener the local one, whatever the protocol of the socket.", "quantifier": "for every address, IPv4 or IPv6, and every role", "why_tests_cant": "Tests connect to one IPv4 address of the local host.", "anchors": ["src/vortex_connection.c:vortex_connection_get_host_ip", "src/vortex_support.c:vortex_support_inet_ntoa"]}
{"id": "C335", "title": "The IP returned stays the same string", "statement": "Once vortex_connection_get_host_ip returned a string, later calls return that string and it can be read while the connection lives.", "quantifier": "for every sequence of calls, whatever the socket answers later", "why_tests_cant": "A socket that changes its answer or is closed between two calls, and strings kept across a change of host.", "anchors": ["src/vortex_connection.c:vortex_connection_get_host_ip", "src/vortex_connection.c:vortex_connection_set_host_and_port"]}
{"id": "C336", "title": "Without an address to tell NULL is returned, and nothing is remembered", "statement": "vortex_connection_get_host_ip returns NULL for a NULL connection and when the socket has no name, and a later call asks the socket again.", "quantifier": "for every number of failed calls before, with and without the log", "why_tests_cant": "Failures of getpeername are hard to provoke, and the log is fixed when the library is compiled.", "anchors": ["src/vortex_connection.c:vortex_connection_get_host_ip"]}
{"id": "C337", "title": "A peer that does not read is closed after the write timeout, and not before", "statement": "With vortex_ctx_write_timeout set, a write that finds no room fails and closes the connection once that many waits ended without room (3 by default), and is not given up before.", "quantifier": "for every frame, every value configured and every number of waits, with any interruptions by signals", "why_tests_cant": "It needs a peer whose buffers fill at chosen moments, and many seconds for each case.", "anchors": ["src/vortex_frame_factory.c:vortex_frame_send_raw", "src/vortex_ctx.c:vortex_ctx_write_timeout"]}
{"id": "C338", "title": "With the closing on write timeout disabled timeouts change nothing", "statement": "After vortex_ctx_close_conn_on_write_timeout (ctx, axl_true) a write waits as long as the peer does not read, and its result is the one it would have without the waits.", "quantifier": "for every frame, every number of timeouts and every behaviour of the socket between them", "why_tests_cant": "The combination of timeouts and partial writes depends on the buffers of both sides.", "anchors": ["src/vortex_frame_factory.c:vortex_frame_send_raw", "src/vortex_ctx.c:vortex_ctx_close_conn_on_write_timeout"]}
