{
 "claims": [
  {
   "property": "C01",
   "status": "proved",
   "theorems": [
    "C01_frame_round_trip"
   ],
   "note": "All data frames, any buffer with 68 bytes of room beyond the payload, any cut of the bytes."
  },
  {
   "property": "C02",
   "status": "partial",
   "theorems": [
    "C02_seq_round_trip_partial",
    "C02_seq_round_trip_refuted"
   ],
   "note": "Proved for acknowledgements below 4294967294; the two topmost values are refuted with witnesses."
  },
  {
   "property": "C03",
   "status": "proved",
   "theorems": [
    "C03_stream"
   ],
   "note": "Any sequence of wire frames, any cut of the bytes."
  },
  {
   "property": "C04",
   "status": "partial",
   "theorems": [
    "C04_any_fragmentation",
    "C04_readiness_partial",
    "C04_timing_refuted",
    "C04_dry_read_refuted"
   ],
   "note": "Delivered frames are always a prefix; complete delivery if the socket runs dry fewer than 25 times; full independence of timing is refuted."
  },
  {
   "property": "C05",
   "status": "partial",
   "theorems": [
    "C05_delivered_partial",
    "C05_strict_refuted",
    "C05_safe_partial",
    "C05_safe_refuted"
   ],
   "note": "What is delivered is characterised for every input with the lenient grammar the code accepts; the strict grammar and memory safety for every input are refuted with witnesses."
  },
  {
   "property": "C06",
   "status": "partial",
   "theorems": [
    "C06_buffers_partial",
    "C06_handler_refuted",
    "C06_mime_feeder_refuted"
   ],
   "note": "No undefined behaviour for every schedule when the frame size handlers ask for at most 1073741774 octets and feeders give no more than asked; refuted for a larger answer and for the file feeder with MIME header asked for one octet."
  },
  {
   "property": "C07",
   "status": "partial",
   "theorems": [
    "C07_send_raw",
    "C07_connection_partial",
    "C07_connection_refuted"
   ],
   "note": "The single call is characterised for every behaviour of the socket; the in-order guarantee over a connection holds when partial writes and timeouts stay below the number of tries and is refuted otherwise."
  },
  {
   "property": "C08",
   "status": "partial",
   "theorems": [
    "C08_segmentation",
    "C08_empty_refuted"
   ],
   "note": "Proved for every schedule without paused feeders; an empty continuation message closes the connection (refuted)."
  },
  {
   "property": "C09",
   "status": "partial",
   "theorems": [
    "C09_within_window_partial",
    "C09_handler_refuted",
    "C09_mime_feeder_refuted"
   ],
   "note": "Proved for the default frame size computation, any peer and any well behaved feeder; refuted for user frame size handlers and for the file feeder with MIME header."
  },
  {
   "property": "C10",
   "status": "proved",
   "theorems": [
    "C10_window_only_grows",
    "C10_acceptance"
   ],
   "note": "Any pair of 32-bit values in the SEQ frame, any point of the sequence space. A refused SEQ closes the connection."
  },
  {
   "property": "C100",
   "status": "proved",
   "theorems": [
    "C12_advertised_windows_grow"
   ],
   "note": "Resized windows are C14."
  },
  {
   "property": "C101",
   "status": "proved",
   "theorems": [
    "C21_each"
   ],
   "note": ""
  },
  {
   "property": "C102",
   "status": "proved",
   "theorems": [
    "C19_numbering"
   ],
   "note": "Applications that reply after NUL are C19."
  },
  {
   "property": "C103",
   "status": "proved",
   "theorems": [
    "C33_add"
   ],
   "note": ""
  },
  {
   "property": "C104",
   "status": "proved",
   "theorems": [
    "C37_unique",
    "C37_increase"
   ],
   "note": "The overflow is C37."
  },
  {
   "property": "C105",
   "status": "proved",
   "theorems": [
    "C35_available",
    "C35_released"
   ],
   "note": "Concurrent calls are C35."
  },
  {
   "property": "C106",
   "status": "proved",
   "theorems": [
    "C15_pieces"
   ],
   "note": "The numbers of different messages are C15."
  },
  {
   "property": "C107",
   "status": "partial",
   "theorems": [
    "C107_headers_partial",
    "C107_always_wrong",
    "C107_overflow",
    "C107_encoding_refuted",
    "C107_memory_refuted"
   ],
   "note": "Holds with the default transfer encoding. False with any other: the MIME type is written as its value (src/vortex_channel.c:593), and it is written out of bounds exactly when it is longer than the encoding and the message by more than 3 octets."
  },
  {
   "property": "C108",
   "status": "partial",
   "theorems": [
    "C108_change_refuted",
    "C108_unregister_refuted",
    "C108_steady_partial"
   ],
   "note": "False: the channels keep pointers to strings that the profile frees. Holds if the profile is not changed while it has channels."
  },
  {
   "property": "C109",
   "status": "proved",
   "theorems": [
    "C109_level",
    "C109_kept",
    "C109_fresh"
   ],
   "note": ""
  },
  {
   "property": "C11",
   "status": "proved",
   "theorems": [
    "C11_check_exact"
   ],
   "note": "Every reachable state of the receiving side, including after the wrap."
  },
  {
   "property": "C110",
   "status": "proved",
   "theorems": [
    "C110_pieces"
   ],
   "note": ""
  },
  {
   "property": "C111",
   "status": "partial",
   "theorems": [
    "C111_end_partial",
    "C111_one_frame",
    "C111_window_refuted",
    "C111_encoding_refuted"
   ],
   "note": "False: the NUL frame carries MIME headers, is cut if the window of the peer has less room, and the peer closes the connection. It is accepted exactly when it fits in one frame."
  },
  {
   "property": "C112",
   "status": "proved",
   "theorems": [
    "C112_received"
   ],
   "note": ""
  },
  {
   "property": "C113",
   "status": "partial",
   "theorems": [
    "C113_says_partial",
    "C113_quote_refuted"
   ],
   "note": "the values are read back as they were written, what XML makes of \"&\" or \"<\" in them is not modelled; false for names with a quote"
  },
  {
   "property": "C114",
   "status": "partial",
   "theorems": [
    "C114_memory",
    "C114_buffer_refuted",
    "C114_filtered_refuted"
   ],
   "note": "exactly characterised by C114_memory; false in the two cases of the refutations"
  },
  {
   "property": "C115",
   "status": "partial",
   "theorems": [
    "C115_received_partial",
    "C115_entity",
    "C115_over",
    "C115_big_refuted"
   ],
   "note": "proved up to 4096 octets of content; false for longer ones"
  },
  {
   "property": "C116",
   "status": "partial",
   "theorems": [
    "C116_whole_partial",
    "C116_listener_refuted"
   ],
   "note": "proved for the initiator; for the listener the frames before may be ignored (refuted)"
  },
  {
   "property": "C117",
   "status": "partial",
   "theorems": [
    "C117_greetings",
    "C117_end_partial",
    "C117_time_partial",
    "C117_spin_refuted"
   ],
   "note": "the end of the connection is only proved to end the loop with no fragment kept; with one it never ends (refuted)"
  },
  {
   "property": "C118",
   "status": "partial",
   "theorems": [
    "C118_origin",
    "C118_exact_partial",
    "C118_zero_refuted"
   ],
   "note": "proved for payloads without zeros and a parser that takes none; false otherwise"
  },
  {
   "property": "C119",
   "status": "proved",
   "theorems": [
    "C119_alarm"
   ],
   "note": ""
  },
  {
   "property": "C12",
   "status": "partial",
   "theorems": [
    "C12_advertised_windows_grow",
    "C12_bad_frame_acked_refuted"
   ],
   "note": "Proved for every sequence of accepted frames anywhere in the sequence space; the exactness of the acknowledgement is refuted for a frame refused by the checks made after the SEQ frame is sent."
  },
  {
   "property": "C120",
   "status": "partial",
   "theorems": [
    "C120_asked_partial",
    "C120_zero_refuted"
   ],
   "note": "proved for max_unreply_count at least 1; false for 0"
  },
  {
   "property": "C121",
   "status": "partial",
   "theorems": [
    "C121_detected_partial",
    "C121_create_partial",
    "C121_refused_refuted",
    "C121_closed_refuted"
   ],
   "note": "proved while the channel is open or not answered for; false if the peer refuses or closes the channel"
  },
  {
   "property": "C122",
   "status": "proved",
   "theorems": [
    "C122_once"
   ],
   "note": ""
  },
  {
   "property": "C123",
   "status": "partial",
   "theorems": [
    "C123_again_partial",
    "C123_again_refuted"
   ],
   "note": "false: once enabled it is never enabled again on that connection"
  },
  {
   "property": "C124",
   "status": "proved",
   "theorems": [
    "C124_first",
    "C124_closed"
   ],
   "note": ""
  },
  {
   "property": "C125",
   "status": "proved",
   "theorems": [
    "C125_limit"
   ],
   "note": ""
  },
  {
   "property": "C126",
   "status": "proved",
   "theorems": [
    "C126_greetings"
   ],
   "note": ""
  },
  {
   "property": "C127",
   "status": "proved",
   "theorems": [
    "C127_vouched"
   ],
   "note": "The SASL library (GNU SASL) is an argument: the theorem is for every library that ends with GSASL_OK only after the validation of the mechanism, or when the response was made with the password of the session (library, faithful in SaslSpec). Of the identity itself see C128."
  },
  {
   "property": "C128",
   "status": "partial",
   "theorems": [
    "C128_identity_partial",
    "C128_again_refuted",
    "C128_retry_refuted",
    "C128_authz_refuted"
   ],
   "note": "Holds when the library fills in the properties and asks the application once in the session, and nothing else is sent on the SASL channels. False in general: the strings are kept without a copy and belong to the session of the library, which releases them when the peer sends another attempt (also after being authenticated), when a new session begins, and when a retry of CRAM-MD5 with another name uses the password of the first; the authorization id of an attempt that failed is left."
  },
  {
   "property": "C129",
   "status": "partial",
   "theorems": [
    "C129_calm_partial",
    "C129_abort_refuted",
    "C129_start_refuted"
   ],
   "note": "Holds without abort and when the library can start its sessions. False: a message with status abort on an open SASL channel makes the listener use the length of a NULL reply; a start that the library refuses leaves the other SASL channels without a session."
  },
  {
   "property": "C13",
   "status": "partial",
   "theorems": [
    "C13_no_loss_partial",
    "C13_no_deadlock_partial",
    "C13_wrap_refuted"
   ],
   "note": "Proved for every schedule in which no SEQ frame acknowledging octet 2^32-1 or 2^32-2 is read; refuted without that restriction (the connection is closed at the wrap)."
  },
  {
   "property": "C130",
   "status": "proved",
   "theorems": [
    "C130_once"
   ],
   "note": ""
  },
  {
   "property": "C131",
   "status": "partial",
   "theorems": [
    "C131_complete_partial",
    "C131_crossed_refuted"
   ],
   "note": "Holds if a channel with the mechanism of the session is open. False: the session belongs to the connection, so a channel goes on with the session of another one that was refused, and the check of the method used finds no channel."
  },
  {
   "property": "C132",
   "status": "partial",
   "theorems": [
    "C132_stays_partial",
    "C132_channel",
    "C132_closed_refuted",
    "C132_malformed_refuted"
   ],
   "note": "False when the SASL channel is closed (which a comment in the code says does not matter) and when the peer sends something that is not a blob."
  },
  {
   "property": "C133",
   "status": "partial",
   "theorems": [
    "C133_told_partial",
    "C133_twice_refuted",
    "C133_sync",
    "C133_sync_refuted"
   ],
   "note": "False when the reply of the listener is not a valid blob: the handler is called twice, and the synchronous call releases its queue twice."
  },
  {
   "property": "C134",
   "status": "partial",
   "theorems": [
    "C134_ok_partial",
    "C134_given",
    "C134_trusting_refuted"
   ],
   "note": "False: a listener that says complete is believed, without the library having checked it."
  },
  {
   "property": "C135",
   "status": "partial",
   "theorems": [
    "C135_again_partial",
    "C135_again_refuted"
   ],
   "note": "False: it removes the authentication there is."
  },
  {
   "property": "C136",
   "status": "partial",
   "theorems": [
    "C136_secure_partial",
    "C136_zero_refuted"
   ],
   "note": "False when SSL_accept returns 0, which is a handshake the peer stopped: the code takes every result that is not -1 for success, and flags the connection. Proved when it is never 0."
  },
  {
   "property": "C137",
   "status": "partial",
   "theorems": [
    "C137_clear_partial",
    "C137_downgrade_refuted",
    "C137_write_refuted"
   ],
   "note": "False: after a handshake that failed without closing the socket the connection goes on in the clear, and a frame written by the sequencer before the handshake goes in the clear. Proved: nothing is read in the clear after proceed unless a handshake failed."
  },
  {
   "property": "C138",
   "status": "proved",
   "theorems": [
    "C138_once"
   ],
   "note": "Active TLS stays, nothing more goes in the clear, and it is not started again."
  },
  {
   "property": "C139",
   "status": "proved",
   "theorems": [
    "C139_told"
   ],
   "note": "Exactly one notification, the last action, and about a connection that exists."
  },
  {
   "property": "C14",
   "status": "partial",
   "theorems": [
    "C14_resize_far_from_wrap_partial",
    "C14_resize_grow_partial",
    "C14_shrink_refuted",
    "C14_starved_refuted",
    "C14_same_limit_refuted"
   ],
   "note": "Safe away from the wrap, and anywhere when requests never shrink; refuted near the wrap, and the sender refuses an update that leaves the limit unchanged."
  },
  {
   "property": "C140",
   "status": "proved",
   "theorems": [
    "C140_ok"
   ],
   "note": "With the precondition that a flagged connection already uses the TLS handlers."
  },
  {
   "property": "C141",
   "status": "partial",
   "theorems": [
    "C141_same_partial",
    "C141_refused_refuted",
    "C141_stall"
   ],
   "note": "False: the SEQ frames were disabled before the reply and are not enabled again, so each channel receives one window and stops. Everything else is as it was."
  },
  {
   "property": "C142",
   "status": "partial",
   "theorems": [
    "C142_failed_partial",
    "C142_failed_refuted"
   ],
   "note": "False: when SSL_connect ends with an error that is not in the list the new connection stays up, in the clear and not watched."
  },
  {
   "property": "C143",
   "status": "proved",
   "theorems": [
    "C143_auto"
   ],
   "note": ""
  },
  {
   "property": "C144",
   "status": "partial",
   "theorems": [
    "C144_sync_partial",
    "C144_true",
    "C144_again_refuted",
    "C144_late_refuted",
    "C144_released_refuted"
   ],
   "note": "False on a connection that is already TLS, when the notification comes before the wait, and on a timeout with a status message. Proved for a caller that waits."
  },
  {
   "property": "C145",
   "status": "partial",
   "theorems": [
    "C145_verify_partial",
    "C145_nul_refuted",
    "C145_missing_refuted"
   ],
   "note": "False for names with a NUL octet; a certificate without common name makes it read uninitialised memory. Proved for names without NUL and shorter than the buffer."
  },
  {
   "property": "C146",
   "status": "proved",
   "theorems": [
    "C146_text",
    "C146_distinct"
   ],
   "note": ""
  },
  {
   "property": "C147",
   "status": "partial",
   "theorems": [
    "C147_once_partial",
    "C147_exactly_partial",
    "C147_account",
    "C147_twice_refuted"
   ],
   "note": "False after cleanup and a second init: the handlers of the first are still there and a close gives two events. Proved for one init without cleanup."
  },
  {
   "property": "C148",
   "status": "proved",
   "theorems": [
    "C148_fifo"
   ],
   "note": ""
  },
  {
   "property": "C149",
   "status": "partial",
   "theorems": [
    "C149_answered_partial",
    "C149_dropped_refuted",
    "C149_leaked_refuted"
   ],
   "note": "False with cleanup: a deferred start whose event is in the queue, or about to be pushed, is dropped without an answer. Proved without cleanup."
  },
  {
   "property": "C15",
   "status": "partial",
   "theorems": [
    "C15_fresh_partial",
    "C15_pieces",
    "C15_overflow_refuted"
   ],
   "note": "Fresh numbers in every execution in which pieces are only resumed while the message is known and the counter does not pass INT_MAX; the counter overflows an int after 2^31 messages (refuted)."
  },
  {
   "property": "C150",
   "status": "proved",
   "theorems": [
    "C150_filter",
    "C150_bits",
    "C150_ids",
    "C150_skip",
    "C150_masked",
    "C150_kinds",
    "C150_install",
    "C150_change"
   ],
   "note": ""
  },
  {
   "property": "C151",
   "status": "partial",
   "theorems": [
    "C151_safe_partial",
    "C151_life_partial",
    "C151_race_refuted",
    "C151_waiter_refuted",
    "C151_noconn_refuted"
   ],
   "note": "False when cleanup runs while a handler is about to push or a thread waits in next_event; an event may come without connection. Proved for a cleanup with nobody in the queue and a user that touches only events it has."
  },
  {
   "property": "C152",
   "status": "partial",
   "theorems": [
    "C152_next_partial",
    "C152_poll_partial",
    "C152_room_partial",
    "C152_epoll_partial",
    "C152_eroom_partial",
    "C152_overflow_refuted",
    "C152_unlimited_refuted",
    "C152_first",
    "C152_count"
   ],
   "note": "False: the doubling overflows an int for sets of 2^30 and more, and an unlimited process (RLIM_INFINITY) becomes -1, so the set never grows beyond 4096. Proved for limits up to 2^30."
  },
  {
   "property": "C153",
   "status": "proved",
   "theorems": [
    "C153_poll",
    "C153_epoll"
   ],
   "note": ""
  },
  {
   "property": "C154",
   "status": "partial",
   "theorems": [
    "C154_data_partial",
    "C154_sleep_partial",
    "C154_ignored_refuted",
    "C154_spin_refuted"
   ],
   "note": "False: a socket with only HUP, ERR or NVAL is reported and never dispatched, so the wait returns at once again and again; epoll_wait over an empty set fails at once. Proved when what is reported is data and the set is not empty."
  },
  {
   "property": "C155",
   "status": "partial",
   "theorems": [
    "C155_inside",
    "C155_set_partial",
    "C155_added",
    "C155_zero_refuted",
    "C155_beyond_refuted"
   ],
   "note": "False for descriptor 0 (never seen as set) and for one beyond FD_SETSIZE, such as a blocked connection that was not added (FD_ISSET outside of the set). Proved for the others."
  },
  {
   "property": "C156",
   "status": "partial",
   "theorems": [
    "C156_account",
    "C156_released_partial",
    "C156_step_partial",
    "C156_leak_refuted",
    "C156_late_refuted"
   ],
   "note": "False: what is still in the queue when the reader ends is never released, and a request pushed after the end uses a released queue. The account is proved for every run; all but what was queued is released."
  },
  {
   "property": "C157",
   "status": "partial",
   "theorems": [
    "C157_stop_partial",
    "C157_once",
    "C157_still",
    "C157_lost_refuted",
    "C157_dead_refuted"
   ],
   "note": "False: a stop followed by another request in the same batch is lost (the last request decides), and a reader gone after two errors of the wait never answers. Proved when the stop is the last request and the I/O mechanism is not changed."
  },
  {
   "property": "C158",
   "status": "partial",
   "theorems": [
    "C158_account_partial",
    "C158_visit",
    "C158_eaten_refuted"
   ],
   "note": "False: a foreach popped while the reader waits for the new I/O mechanism is never answered. Proved without such a change; what is left when the reader ends is not answered either."
  },
  {
   "property": "C159",
   "status": "partial",
   "theorems": [
    "C159_watched_partial",
    "C159_set",
    "C159_idle",
    "C159_stale_refuted"
   ],
   "note": "False: an unwatch flagged before the connection is watched removes it later although it is up. Proved for connections nobody unwatches."
  },
  {
   "property": "C16",
   "status": "proved",
   "theorems": [
    "C16_accepted",
    "C16_decision",
    "C16_after_close"
   ],
   "note": "Every behaviour of the application and of the peer."
  },
  {
   "property": "C160",
   "status": "partial",
   "theorems": [
    "C160_select_partial",
    "C160_events",
    "C160_skipped_refuted"
   ],
   "note": "False with select(2): a listener that went down counts as one of the sockets changed, so the last readable connections are skipped in the turn. Proved while the listed connections are up, and with dispatch."
  },
  {
   "property": "C161",
   "status": "partial",
   "theorems": [
    "C161_installed_partial",
    "C161_early_refuted"
   ],
   "note": "False: any request queued between the two notifications makes the reader go on with the new wait set. Proved when no other request is queued in between."
  },
  {
   "property": "C162",
   "status": "partial",
   "theorems": [
    "C162_only",
    "C162_up",
    "C162_start_partial",
    "C162_headers_refuted"
   ],
   "note": "False: only one line is read after the status line, so a reply with header fields leaves the rest of it in front of the BEEP greetings. Proved: no greetings without a 2xx reply, and the exact place where they start."
  },
  {
   "property": "C163",
   "status": "partial",
   "theorems": [
    "C163_handler_partial",
    "C163_sync",
    "C163_negative",
    "C163_handler_refuted"
   ],
   "note": "False with a handler: a negative reply of the proxy returns without calling it and without releasing the setup. Proved for every other outcome and for the synchronous call."
  },
  {
   "property": "C164",
   "status": "partial",
   "theorems": [
    "C164_flag_partial",
    "C164_handler_refuted",
    "C164_down_refuted"
   ],
   "note": "False: the flag is set after the synchronous call only (also when it failed), never when a handler is used."
  },
  {
   "property": "C165",
   "status": "partial",
   "theorems": [
    "C165_lines_partial",
    "C165_lines_refuted"
   ],
   "note": "False for hosts with a line feed, which are written as they are. Proved for the rest."
  },
  {
   "property": "C166",
   "status": "partial",
   "theorems": [
    "C166_documented",
    "C166_coherent_partial",
    "C166_addresses_refuted",
    "C166_dropped_refuted"
   ],
   "note": "False: a hop that cannot be configured is dropped in silence, so the tunnel goes around it; both addresses of a hop can be given. Proved: every documented combination is taken in any order, and what is taken is coherent."
  },
  {
   "property": "C167",
   "status": "partial",
   "theorems": [
    "C167_route_partial",
    "C167_prefix",
    "C167_all",
    "C167_documents",
    "C167_unsupported_refuted",
    "C167_endless_refuted"
   ],
   "note": "False: hops given with IPv6, a service without port, a uri or an endpoint are never contacted; resolvers can make a request endless. Proved for hops with a name or an IPv4 address and a port, for routes of any length."
  },
  {
   "property": "C168",
   "status": "partial",
   "theorems": [
    "C168_result_partial",
    "C168_handler_refuted"
   ],
   "note": "False: the handler is never called. Proved for the value returned."
  },
  {
   "property": "C169",
   "status": "proved",
   "theorems": [
    "C169_answer",
    "C169_bad"
   ],
   "note": ""
  },
  {
   "property": "C17",
   "status": "partial",
   "theorems": [
    "C17_order_partial",
    "C17_terminates",
    "C17_pieces_refuted"
   ],
   "note": "Proved for every order of calls in which each message gets one answer, sent in pieces only for the oldest message; refuted for pieces of other messages (the first piece is lost)."
  },
  {
   "property": "C170",
   "status": "partial",
   "theorems": [
    "C170_order_partial",
    "C170_all_partial",
    "C170_gap_refuted"
   ],
   "note": "False: a write that gives up after some octets leaves the connection up, and what follows is passed after a gap. Proved when each write is complete or closes the connection."
  },
  {
   "property": "C171",
   "status": "partial",
   "theorems": [
    "C171_end",
    "C171_again_refuted",
    "C171_released_refuted",
    "C171_length_refuted",
    "C170_all_partial"
   ],
   "note": "False: a read with nothing to take closes both sides; after a failed write the partner is released and used again, or -1 octets are written. Proved: an end closes both sides, and without failed writes nothing undefined happens (C170_all_partial)."
  },
  {
   "property": "C172",
   "status": "proved",
   "theorems": [
    "C172_accept",
    "C172_decided"
   ],
   "note": ""
  },
  {
   "property": "C173",
   "status": "proved",
   "theorems": [
    "C173_once"
   ],
   "note": "Each installation is a distinct handler: the reuse of an address released by the allocator is not modelled."
  },
  {
   "property": "C174",
   "status": "partial",
   "theorems": [
    "C174_all_partial",
    "C174_skip_refuted"
   ],
   "note": "False: the list is walked by position with the mutex released, so a handler that removes itself makes the next one be skipped. Proved when nothing is removed while the notification runs."
  },
  {
   "property": "C175",
   "status": "partial",
   "theorems": [
    "C175_removed_partial",
    "C175_late_refuted"
   ],
   "note": "False: the handler is copied, the mutex is released and then it is called; a removal in between returns before the call. Proved: only notifications that had started before the removal may call it."
  },
  {
   "property": "C176",
   "status": "partial",
   "theorems": [
    "C176_wait_partial",
    "C176_freed_refuted"
   ],
   "note": "False: the two functions use different mutexes; an unlock that finds a thread on its way to the queue destroys it. Proved for one waiting thread when no unlock overlaps that way."
  },
  {
   "property": "C177",
   "status": "partial",
   "theorems": [
    "C177_lost_refuted",
    "C177_two_refuted",
    "C176_wait_partial"
   ],
   "note": "False: an unlock between the test of the flag and the creation of the queue is lost; with two waiting threads only one is released and the queue of the other is destroyed. Proved for one waiting thread without overlap."
  },
  {
   "property": "C178",
   "status": "proved",
   "theorems": [
    "C178_order",
    "C178_roles"
   ],
   "note": "For the first four octets received together; the other segmentations are C181."
  },
  {
   "property": "C179",
   "status": "partial",
   "theorems": [
    "C179_filter_refuted"
   ],
   "note": "False: the address and port are stored and never compared."
  },
  {
   "property": "C18",
   "status": "proved",
   "theorems": [
    "C18_oldest",
    "C18_decision",
    "C18_numbers"
   ],
   "note": ""
  },
  {
   "property": "C180",
   "status": "partial",
   "theorems": [
    "C180_again_refuted",
    "C180_detected_partial"
   ],
   "note": "False: the answer 1 is not recorded, so every read of the connection asks again. Proved once a transport was found."
  },
  {
   "property": "C181",
   "status": "partial",
   "theorems": [
    "C181_beep_partial",
    "C181_segments_refuted",
    "C181_missed_refuted"
   ],
   "note": "False: with less than four octets available the detection is skipped, the octets are read, and the next ones are examined. Proved when the first four octets arrive together."
  },
  {
   "property": "C182",
   "status": "partial",
   "theorems": [
    "C182_shutdown_partial",
    "C182_only",
    "C182_closed",
    "C182_survivor_refuted",
    "C182_unseen_refuted"
   ],
   "note": "False: connections accepted between the visit of the reader and the shutdown of the listener, and the ones the reader does not have at that moment, stay open. Proved for the ones the reader has; nothing else is closed and nothing more is accepted."
  },
  {
   "property": "C183",
   "status": "partial",
   "theorems": [
    "C183_seen",
    "C183_given",
    "C183_count_refuted"
   ],
   "note": "Proved: what is read for every name after every sequence of calls whose sizes fit an int. False for the count: the five usual names keep only the last value, so a name set twice counts one."
  },
  {
   "property": "C184",
   "status": "partial",
   "theorems": [
    "C184_other_partial",
    "C184_overwrite_refuted",
    "C184_removal_refuted"
   ],
   "note": "False: a name set again gets a second value after the first one, and a removal of a name with several values keeps the first one. Proved: other names are not changed by a removal."
  },
  {
   "property": "C185",
   "status": "partial",
   "theorems": [
    "C185_size",
    "C185_block_refuted",
    "C185_negative_refuted"
   ],
   "note": "Proved: the size without removals is two plus the lengths and two for each header. That is not the size of the text (\": \" and CR LF are four), and removals can make it negative."
  },
  {
   "property": "C186",
   "status": "partial",
   "theorems": [
    "C186_memory_partial",
    "C186_held_refuted",
    "C186_calls_refuted"
   ],
   "note": "Proved for every program that keeps the contract written in FrameSpec.v; false if the only condition is to hold the references: vortex_frame_join_extending on a received or MIME-processed frame frees or reallocates memory it does not own, the content of the join of processed frames and of a frame with added headers is read past its end, and so does a copy of a processed frame with an added header."
  },
  {
   "property": "C187",
   "status": "partial",
   "theorems": [
    "C187_values_partial",
    "C187_more_refuted"
   ],
   "note": "All the answers are the ones of frames as values; the more flag given to the creation functions is not stored."
  },
  {
   "property": "C188",
   "status": "partial",
   "theorems": [
    "C188_copy_equal_partial",
    "C188_copy_equal_refuted"
   ],
   "note": "Proved for complete frames without MIME headers and with a payload; false for a frame with the more flag or with an empty payload read from a connection."
  },
  {
   "property": "C189",
   "status": "partial",
   "theorems": [
    "C189_equal_partial",
    "C189_equal_refuted"
   ],
   "note": "The payloads are compared as C strings: proved without zero octets, false with them."
  },
  {
   "property": "C19",
   "status": "partial",
   "theorems": [
    "C19_numbering",
    "C19_after_nul_refuted"
   ],
   "note": "Proved for applications that stop after NUL; an ANS issued after the NUL of a waiting message is accepted and sent later (refuted)."
  },
  {
   "property": "C190",
   "status": "partial",
   "theorems": [
    "C190_join_partial",
    "C190_first_refuted"
   ],
   "note": "The payload is proved; the headers of the first frame move to the join."
  },
  {
   "property": "C191",
   "status": "partial",
   "theorems": [
    "C191_stable_partial",
    "C191_copy_partial",
    "C191_headers_refuted"
   ],
   "note": "Proved for payloads; the MIME headers are shared between a frame and its copies."
  },
  {
   "property": "C192",
   "status": "proved",
   "theorems": [
    "C192_fragments"
   ],
   "note": ""
  },
  {
   "property": "C193",
   "status": "partial",
   "theorems": [
    "C193_start_partial",
    "C193_server_refuted",
    "C193_content_refuted",
    "C193_nul_refuted"
   ],
   "note": "Read back exactly for names without quote, < and & and for contents without \"]]>\" and zero octets (with the reader of XML of MsgSpec.v). Nothing is escaped: a serverName can make the peer start another profile, a content with \"]]>\" is cut, and the size of the content is not used, so that it ends at its first zero (refuted)."
  },
  {
   "property": "C194",
   "status": "partial",
   "theorems": [
    "C194_close_partial",
    "C194_error_partial",
    "C194_reply_partial",
    "C194_error_refuted"
   ],
   "note": "As C193; an error text with \"<\" is not a document any more (refuted)."
  },
  {
   "property": "C195",
   "status": "partial",
   "theorems": [
    "C195_kind_partial",
    "C195_prefix_refuted"
   ],
   "note": "The element decides, but any element whose name starts with start, close, error or ok is taken for it (refuted)."
  },
  {
   "property": "C196",
   "status": "partial",
   "theorems": [
    "C196_defined_partial",
    "C196_unreadable",
    "C196_crash_refuted",
    "C196_silent_refuted"
   ],
   "note": "The validation of the messages is commented out in the code: a request without the attribute number makes atoi read a null pointer (refuted), and a message ok or error is not answered (refuted). Proved: no undefined behaviour when the attribute is there and fits an int, and the answers to what is not XML."
  },
  {
   "property": "C197",
   "status": "partial",
   "theorems": [
    "C197_number_partial",
    "C197_number_refuted",
    "C197_profile_refuted"
   ],
   "note": "Proved for decimal numbers; numbers that are not one, negative or empty are accepted as 0 or as their prefix, and so is a start without profile (refuted)."
  },
  {
   "property": "C198",
   "status": "proved",
   "theorems": [
    "C198_in_turn"
   ],
   "note": ""
  },
  {
   "property": "C199",
   "status": "partial",
   "theorems": [
    "C199_no_unregister_partial",
    "C199_guarded_partial",
    "C199_asked_refuted",
    "C199_again_refuted"
   ],
   "note": "Safe when nothing is unregistered, and with unregistering as long as no registered profile is registered again and nobody asks if it has a start or close handler; those functions use the profile without a reference and without the mutex (refuted)."
  },
  {
   "property": "C20",
   "status": "proved",
   "theorems": [
    "C20_limit"
   ],
   "note": ""
  },
  {
   "property": "C200",
   "status": "proved",
   "theorems": [
    "C200_released"
   ],
   "note": ""
  },
  {
   "property": "C201",
   "status": "partial",
   "theorems": [
    "C201_origin",
    "C201_pair_refuted"
   ],
   "note": "The handler and the data come from calls for that profile and kind of handler; but they are read and written one at a time, so that a handler may get the data of another one (refuted)."
  },
  {
   "property": "C202",
   "status": "proved",
   "theorems": [
    "C202_greeting"
   ],
   "note": ""
  },
  {
   "property": "C203",
   "status": "partial",
   "theorems": [
    "C203_received_refuted"
   ],
   "note": "False: the function looks at the close handler, which is never null."
  },
  {
   "property": "C204",
   "status": "partial",
   "theorems": [
    "C204_delivered_partial",
    "C204_delivered_refuted"
   ],
   "note": "Proved when no call takes the received handler away; otherwise an accepted frame may be dropped (refuted)."
  },
  {
   "property": "C205",
   "status": "partial",
   "theorems": [
    "C205_recipient",
    "C205_waiting_refuted"
   ],
   "note": "The order is proved for all states; but a thread that waits for a reply does not get it when the context has a frame received handler (refuted)."
  },
  {
   "property": "C206",
   "status": "proved",
   "theorems": [
    "C206_once"
   ],
   "note": ""
  },
  {
   "property": "C207",
   "status": "partial",
   "theorems": [
    "C207_in_memory_partial",
    "C207_in_memory_refuted"
   ],
   "note": "Proved while no other channel is opened with the same number; with one, a pending task of the profile takes a reference from it (refuted)."
  },
  {
   "property": "C208",
   "status": "partial",
   "theorems": [
    "C208_released_partial",
    "C208_profile_refuted",
    "C208_parameters_refuted",
    "C208_serialised_refuted"
   ],
   "note": "Proved without serialize and with handlers of channels, or while the connection, the channel and the handler last; the other cases leak (refuted)."
  },
  {
   "property": "C209",
   "status": "partial",
   "theorems": [
    "C209_delivered_partial",
    "C209_none_dropped",
    "C209_serialised_refuted"
   ],
   "note": "With serialize a frame without content may take the place of another one (refuted)."
  },
  {
   "property": "C21",
   "status": "partial",
   "theorems": [
    "C21_delivery_partial",
    "C21_each",
    "C21_not_mime_refuted"
   ],
   "note": "Proved for any number of messages, any cut in frames and sequence numbers that wrap, for MIME contents or single frames; joined contents that are not MIME make the reader access memory out of bounds (refuted)."
  },
  {
   "property": "C210",
   "status": "proved",
   "theorems": [
    "C210_once"
   ],
   "note": ""
  },
  {
   "property": "C211",
   "status": "partial",
   "theorems": [
    "C211_safe_partial",
    "C211_late_refuted",
    "C211_locked_refuted"
   ],
   "note": "Proved when no call begins while another thread is entering; calls at the same time lock, or destroy, the exit mutex wrongly (refuted)."
  },
  {
   "property": "C212",
   "status": "partial",
   "theorems": [
    "C212_called_partial",
    "C212_removed_refuted",
    "C212_free_refuted"
   ],
   "note": "Proved without removals during the end; a cleanup that removes itself makes the next one be skipped and vortex_ctx_free calls none (refuted)."
  },
  {
   "property": "C213",
   "status": "partial",
   "theorems": [
    "C213_released_partial",
    "C213_log_refuted"
   ],
   "note": "With logs that use the mutex the release locks a mutex that was destroyed (refuted)."
  },
  {
   "property": "C214",
   "status": "partial",
   "theorems": [
    "C214_null_partial",
    "C214_alone_partial",
    "C214_two_refuted"
   ],
   "note": "Two threads that release at the same time keep pointers to a released context (refuted)."
  },
  {
   "property": "C215",
   "status": "proved",
   "theorems": [
    "C215_apart"
   ],
   "note": ""
  },
  {
   "property": "C216",
   "status": "partial",
   "theorems": [
    "C216_idle_partial",
    "C216_configured_partial",
    "C216_setting_refuted",
    "C216_active_refuted"
   ],
   "note": "Each call follows a time at which the reader found the connection idle, and the configuration is respected if it does not change; the handler is stored before its period and data, and the activity after the decision is not seen (refuted)."
  },
  {
   "property": "C217",
   "status": "proved",
   "theorems": [
    "C217_in_memory"
   ],
   "note": ""
  },
  {
   "property": "C218",
   "status": "partial",
   "theorems": [
    "C218_references_partial",
    "C218_removed_refuted",
    "C218_pool_refuted"
   ],
   "note": "Proved when the handler is configured once and the pool is not stopped; a handler taken away or a pool stopped with a notification under way lose a reference for ever (refuted)."
  },
  {
   "property": "C219",
   "status": "partial",
   "theorems": [
    "C219_called_partial",
    "C219_never_refuted",
    "C219_twice_refuted"
   ],
   "note": "A connection that is idle is notified by the next pass if nothing is under way; but it may be notified twice in the same second, or never again after the handler was taken away for a moment (refuted)."
  },
  {
   "property": "C22",
   "status": "partial",
   "theorems": [
    "C22_kept",
    "C22_out_of_place",
    "C22_mixed_refuted",
    "C22_interleaved_refuted",
    "C22_nul_refuted"
   ],
   "note": "Fragments kept always belong to one message; the last frame is joined without any check (refuted)."
  },
  {
   "property": "C220",
   "status": "proved",
   "theorems": [
    "C220_totals"
   ],
   "note": "Totals without upper limit (a long in the code)."
  },
  {
   "property": "C221",
   "status": "partial",
   "theorems": [
    "C221_call_partial",
    "C221_unfilled",
    "C221_text_refuted",
    "C221_double_refuted",
    "C221_base64_refuted",
    "C221_name_refuted",
    "C221_set_refuted"
   ],
   "note": "Proved for names without markup, ints of 32 bits, doubles that are integers of six digits, texts without \"]]>\", none, and full structs and arrays of these, nested at will. Refuted: a text with \"]]>\", the double 1234567 (arrives as 1234570), a name with \"<\"; a base64 or a date is undefined behaviour; a parameter given by position with set_value is not counted, and the call is not written."
  },
  {
   "property": "C222",
   "status": "partial",
   "theorems": [
    "C222_response_partial",
    "C222_none_refuted",
    "C222_fault_refuted"
   ],
   "note": "Proved for the same values, base64 and faults; a none or a date gives no reply, and a fault without text a null response (refuted)."
  },
  {
   "property": "C223",
   "status": "partial",
   "theorems": [
    "C223_int_partial",
    "C223_boolean_partial",
    "C223_text_partial",
    "C223_value_element_partial",
    "C223_call_element_partial",
    "C223_lax_refuted",
    "C223_untyped_refuted",
    "C223_shift_refuted"
   ],
   "note": "The texts accepted as int and boolean are characterised exactly; the empty text is 0, 4294967297 is 1, 7 is a boolean, any text is a double, a value without type is refused and a bad parameter shifts the following ones (refuted)."
  },
  {
   "property": "C224",
   "status": "partial",
   "theorems": [
    "C224_look_partial",
    "C224_inside_partial",
    "C224_hole_refuted",
    "C224_int_refuted"
   ],
   "note": "Safe if every member received is a value; otherwise the member count includes places that are null, and asking a text as an int reads the octets of a pointer (refuted)."
  },
  {
   "property": "C225",
   "status": "partial",
   "theorems": [
    "C225_order_partial",
    "C225_refused_refuted",
    "C225_deferred_refuted"
   ],
   "note": "The handlers called are a prefix of the list, once each; but one whose validation refused is called, and a deferred call is given to the next one too (refuted)."
  },
  {
   "property": "C226",
   "status": "partial",
   "theorems": [
    "C226_served_partial",
    "C226_unread_partial",
    "C226_unread_refuted",
    "C226_none_refuted"
   ],
   "note": "End to end for sendable calls and responses; nothing is answered to a call that cannot be read nor for a none (refuted)."
  },
  {
   "property": "C227",
   "status": "partial",
   "theorems": [
    "C227_own_reply_partial",
    "C227_crossed_refuted",
    "C227_peer_message_refuted",
    "C227_answers_refuted",
    "C227_retry_refuted"
   ],
   "note": "Proved for applications that make an invocation when the previous ones were told (and, if failed, ended) and peers that only reply; two invocations at once, a message or an ANS of the peer, or a handler that retries when told of a failure use memory released (refuted)."
  },
  {
   "property": "C228",
   "status": "partial",
   "theorems": [
    "C228_told_partial",
    "C228_not_blocked_partial",
    "C228_closed_refuted"
   ],
   "note": "Proved while the connection stays, for the same applications and peers; the handler of an invocation whose connection is closed is never told (refuted)."
  },
  {
   "property": "C229",
   "status": "partial",
   "theorems": [
    "C229_one_frame",
    "C229_at_most_once_partial",
    "C229_twice_refuted"
   ],
   "note": "At most one frame in every run; at most once if no message fails to be sent. Otherwise it may be told twice (refuted)."
  },
  {
   "property": "C23",
   "status": "partial",
   "theorems": [
    "C23_bound",
    "C23_exact",
    "C23_limit",
    "C23_final_refuted"
   ],
   "note": "The bound on stored bytes holds in every execution; a message that goes over the limit with its last frame is still delivered (refuted)."
  },
  {
   "property": "C230",
   "status": "partial",
   "theorems": [
    "C230_released_partial",
    "C230_returned_refuted"
   ],
   "note": "The method call is released when its task ends, once; that of a refused invocation never is, and the value returned is always false (refuted)."
  },
  {
   "property": "C231",
   "status": "partial",
   "theorems": [
    "C231_initiator_partial",
    "C231_twice_refuted"
   ],
   "note": "Proved for callers that hold a reference or whose previous calls returned false, with losses at any moment; a second call without a reference uses memory released (refuted, as documented)."
  },
  {
   "property": "C232",
   "status": "proved",
   "theorems": [
    "C232_initiator",
    "C232_not_started"
   ],
   "note": "For the callers of C231."
  },
  {
   "property": "C233",
   "status": "partial",
   "theorems": [
    "C233_true_partial",
    "C233_true_refuted"
   ],
   "note": "Proved if no call returns false; otherwise a concurrent caller may be told true of a connection that stays open (refuted)."
  },
  {
   "property": "C234",
   "status": "partial",
   "theorems": [
    "C234_accepted_partial",
    "C234_not_owned_refuted",
    "C234_stolen_refuted",
    "C234_listener_refuted"
   ],
   "note": "Proved for callers that hold a reference to a connection accepted that is not lost meanwhile; without a reference the close races with the reader, and if the connection is lost it drops a reference of others (refuted)."
  },
  {
   "property": "C235",
   "status": "partial",
   "theorems": [
    "C235_set_get_partial",
    "C235_connect_partial",
    "C235_default",
    "C235_new_context",
    "C235_range_refuted"
   ],
   "note": "Proved for the values an int holds (for the synchronous timeout, other than 0); the others are truncated or ignored (refuted)."
  },
  {
   "property": "C236",
   "status": "partial",
   "theorems": [
    "C236_last_got_partial",
    "C236_default_refuted"
   ],
   "note": "0 leaves the value that was got last: the default only if no other was ever got (refuted otherwise)."
  },
  {
   "property": "C237",
   "status": "partial",
   "theorems": [
    "C237_once_got_partial",
    "C237_connect_once_got_partial",
    "C237_shared_refuted"
   ],
   "note": "Proved for a context already asked for its timeout; before that, it uses what was configured last on any context (refuted)."
  },
  {
   "property": "C238",
   "status": "partial",
   "theorems": [
    "C238_once_got_partial",
    "C238_from",
    "C238_lost_refuted"
   ],
   "note": "Proved once one call returned with no other under way; otherwise the first calls may put the old value back for good (refuted). Every value returned is the default or one configured."
  },
  {
   "property": "C239",
   "status": "partial",
   "theorems": [
    "C239_sockets",
    "C239_defined_partial",
    "C239_sets_partial",
    "C239_reserved_refuted",
    "C239_sets_refuted"
   ],
   "note": "The sockets: proved. A descriptor below 3 is reported with a format that lacks its argument (undefined behaviour, refuted), and a waiting set is leaked when the I/O mechanism gives -3 (refuted)."
  },
  {
   "property": "C24",
   "status": "partial",
   "theorems": [
    "C24_body",
    "C24_unique",
    "C24_joined_partial",
    "C24_joined_refuted"
   ],
   "note": "Proved for every content received in one frame; for joined messages only when the content is MIME, false otherwise."
  },
  {
   "property": "C240",
   "status": "partial",
   "theorems": [
    "C240_connected_partial",
    "C240_given_partial",
    "C240_below_a_second_refuted",
    "C240_errno_refuted"
   ],
   "note": "Proved for timeouts that are not below one second and with errno not EBADF before the wait (both refuted otherwise)."
  },
  {
   "property": "C241",
   "status": "partial",
   "theorems": [
    "C241_not_before_partial",
    "C241_from_2038",
    "C241_year_2038_refuted"
   ],
   "note": "Proved for clocks an int holds; from 2038 on every connect with a timeout fails at once (refuted)."
  },
  {
   "property": "C242",
   "status": "partial",
   "theorems": [
    "C242_left_partial",
    "C242_waits_partial",
    "C242_below_a_second_refuted",
    "C242_tick_refuted"
   ],
   "note": "Proved for timeouts of a second or more when the clock does not reach the deadline; below a second greetings not there yet are refused at once (refuted)."
  },
  {
   "property": "C243",
   "status": "partial",
   "theorems": [
    "C243_told_partial",
    "C243_lost_refuted"
   ],
   "note": "Proved if getsockname and getnameinfo work; otherwise nobody is told and the socket stays open (refuted)."
  },
  {
   "property": "C244",
   "status": "proved",
   "theorems": [
    "C244_connected",
    "C244_kept",
    "C244_channels_told"
   ],
   "note": "For all connections, handlers and outcomes; the connect itself is the one of Dial, here a parameter."
  },
  {
   "property": "C245",
   "status": "partial",
   "theorems": [
    "C245_greeted_partial",
    "C245_reader_partial",
    "C245_flagged",
    "C245_rest_refuted",
    "C245_piece_refuted"
   ],
   "note": "Holds when nothing of the earlier session is kept, which is the case when the reader finds the end by itself. Refuted otherwise: reconnect does not clear the partial frame, the pending line, the counter of empty reads nor the piece of greetings, so the greetings of the new session are taken as the rest of a frame of the old one."
  },
  {
   "property": "C246",
   "status": "partial",
   "theorems": [
    "C246_clear_partial",
    "C246_tls_refuted"
   ],
   "note": "Holds for sessions in the clear. Refuted for TLS: the send and receive handlers are not restored, so no reconnect of a secured connection succeeds. That the handlers of a dead TLS session give an error is assumed."
  },
  {
   "property": "C247",
   "status": "partial",
   "theorems": [
    "C247_references",
    "C247_forgotten",
    "C247_once_refuted"
   ],
   "note": "The accounting of references and that a connection over is forgotten are proved for all interleavings. Refuted: a connection made again before the reader notices the end is watched twice."
  },
  {
   "property": "C248",
   "status": "partial",
   "theorems": [
    "C248_value_partial",
    "C248_value_refuted"
   ],
   "note": "Holds when the local address is known. Refuted when getsockname or getnameinfo fail: false is returned, or the handler never called, with a connection that says it is ok and nobody reads."
  },
  {
   "property": "C249",
   "status": "partial",
   "theorems": [
    "C249_kept_partial",
    "C249_leak_refuted"
   ],
   "note": "The exact number of local addresses held is proved; it grows by one with each connect."
  },
  {
   "property": "C25",
   "status": "partial",
   "theorems": [
    "C25_lookup",
    "C25_content_type",
    "C25_no_content_type",
    "C25_usual_refuted"
   ],
   "note": "Exact result of every lookup; repeated usual headers only keep the last value (refuted)."
  },
  {
   "property": "C250",
   "status": "partial",
   "theorems": [
    "C250_recorded_partial",
    "C250_peer_partial",
    "C250_trailer_refuted",
    "C250_greeting_refuted",
    "C250_name_refuted"
   ],
   "note": "The text recorded is exactly the one expected when the log is off, or no text has a percent sign. Refuted with the log on: the whole text is given to vortex_log as the format, so the content of a bad frame, of bad greetings or the server name reaches printf as a format (undefined behaviour)."
  },
  {
   "property": "C251",
   "status": "partial",
   "theorems": [
    "C251_filter_partial",
    "C251_none_partial",
    "C251_off",
    "C251_adds_partial",
    "C251_last_refuted"
   ],
   "note": "Proved for the first filter and for NULL. Refuted: the levels of each filter are added to the ones before and never taken away."
  },
  {
   "property": "C252",
   "status": "partial",
   "theorems": [
    "C252_one_partial",
    "C252_escaped",
    "C252_prepared_partial",
    "C252_both_refuted",
    "C252_prepared_refuted"
   ],
   "note": "Proved for one handler and for prepared logs whose handlers do not expand (or text without conversions). Refuted: with both handlers the list of arguments is used twice, and prepared with a handler that expands."
  },
  {
   "property": "C253",
   "status": "partial",
   "theorems": [
    "C253_enable",
    "C253_env",
    "C253_color_partial",
    "C253_color_refuted",
    "C253_mutex_refuted"
   ],
   "note": "vortex_log_enable and the environment are proved. Refuted: the color disabled is enabled again by the environment, and vortex_log_acquire_mutex (false) enables the mutex."
  },
  {
   "property": "C254",
   "status": "partial",
   "theorems": [
    "C254_kept_partial",
    "C254_soft",
    "C254_raised",
    "C254_hard_partial",
    "C254_told_partial",
    "C254_zero_refuted",
    "C254_hard_refuted",
    "C254_wide_refuted"
   ],
   "note": "Proved for the values other than 0 and hard limits not under the soft one. Refuted: 0 is never accepted, a hard limit under the soft one is told set and is not, limits over 32 bits are told truncated."
  },
  {
   "property": "C255",
   "status": "partial",
   "theorems": [
    "C255_ends_partial",
    "C255_handler_refuted"
   ],
   "note": "Proved without the mutex of the log or out of a handler. Refuted: a log handler that logs, with the mutex (even asked off), waits for itself."
  },
  {
   "property": "C256",
   "status": "proved",
   "theorems": [
    "C256_drained",
    "C256_ends"
   ],
   "note": "Nothing is held by the transport after a round of the reader, unless the connection is down or unwatched, and the round ends."
  },
  {
   "property": "C257",
   "status": "partial",
   "theorems": [
    "C257_stream_partial",
    "C257_slow_refuted"
   ],
   "note": "Proved for records that come whole, with less than 25 arrivals (or: delivered exactly unless closed for too many reads without data, then a prefix). Refuted in general: a header that comes in more than 25 arrivals closes the connection."
  },
  {
   "property": "C258",
   "status": "partial",
   "theorems": [
    "C258_header_partial",
    "C258_closes",
    "C258_silent",
    "C258_body_refuted"
   ],
   "note": "Proved when no body is half read. Refuted: a piece of a record that comes while a body is half read closes the connection (also proved: it always does)."
  },
  {
   "property": "C259",
   "status": "partial",
   "theorems": [
    "C259_greetings_partial",
    "C259_ending",
    "C259_down",
    "C259_after_refuted",
    "C259_frames_refuted"
   ],
   "note": "Proved for greetings in one frame, cut in any records, with nothing after it. Refuted: a frame in the record of the greetings is not read until more comes to the socket; greetings of two frames in one record are never read."
  },
  {
   "property": "C26",
   "status": "proved",
   "theorems": [
    "C26_line",
    "C26_usable",
    "C26_once",
    "C26_order",
    "C26_free"
   ],
   "note": ""
  },
  {
   "property": "C260",
   "status": "partial",
   "theorems": [
    "C260_lives_partial",
    "C260_mutex_partial",
    "C260_shared_refuted",
    "C260_released_refuted",
    "C260_mutex_refuted"
   ],
   "note": "Proved when the user takes a reference for each connection, does not configure the mutex meanwhile, and for the mutexes when MUTEX_IO is on. Refuted: two connections over the only reference, or a user that releases the setup it created, end in a use after free; without MUTEX_IO a mutex that was never created is destroyed."
  },
  {
   "property": "C261",
   "status": "partial",
   "theorems": [
    "C261_apart_partial",
    "C261_accepted_refuted",
    "C261_on_refuted",
    "C261_off_refuted"
   ],
   "note": "Proved for connections created (not accepted) with the mutex configured before. Refuted: accepted connections do not use the mutex; turned on while a handler runs an unlocked mutex is unlocked; turned off while a handler runs it is held for ever and the connection is never freed."
  },
  {
   "property": "C262",
   "status": "partial",
   "theorems": [
    "C262_returned_partial",
    "C262_told_refuted",
    "C262_never_told",
    "C262_lost_refuted",
    "C262_handlers_refuted"
   ],
   "note": "Proved: what is returned, the setup and the prepare handler. Refuted: on_connected is never called; without memory for the data the connection is lost; NULL handlers are called."
  },
  {
   "property": "C263",
   "status": "partial",
   "theorems": [
    "C263_host_refuted",
    "C263_never"
   ],
   "note": "Refuted: the values are stored and never used; no connection reports them."
  },
  {
   "property": "C264",
   "status": "partial",
   "theorems": [
    "C264_client",
    "C264_listener_partial",
    "C264_listener_refuted"
   ],
   "note": "Proved for connections, and for listeners whose number is not given again. Refuted: a listener closes its descriptor when it is shut down and the same number again when it is freed."
  },
  {
   "property": "C265",
   "status": "partial",
   "theorems": [
    "C265_closed_partial",
    "C265_late_refuted",
    "C265_race_refuted",
    "C265_other_refuted"
   ],
   "note": "Proved for handles given back to their own connection before it is closed. Refuted: a handle given back after the handler was called, while the closing thread waits for the interpreter, or to another connection (or one closed) leads to a use of released memory."
  },
  {
   "property": "C266",
   "status": "partial",
   "theorems": [
    "C266_safe_partial",
    "C266_listener_refuted"
   ],
   "note": "Proved for connections created or accepted. Refuted: a listener shut down (or broken) and then closed drops two references, one of them the one of the reader."
  },
  {
   "property": "C267",
   "status": "partial",
   "theorems": [
    "C267_initiator_partial",
    "C267_accepted_partial",
    "C267_accepted_refuted",
    "C267_twice_refuted",
    "C267_listener_refuted"
   ],
   "note": "Proved for a connection created by the program and closed through that object, and for accepted connections that are not closed by the program. Refuted: an accepted connection closed, two objects of a connection both closed, and a listener that could not be started are never freed."
  },
  {
   "property": "C268",
   "status": "partial",
   "theorems": [
    "C268_queue_partial",
    "C268_collect_partial",
    "C268_left_refuted",
    "C268_none_refuted"
   ],
   "note": "Proved as long as no connection is broken under a get_reply, and for a queue collected when empty. Refuted: what is left inside a queue is never released; None pushed and a timeout are told the same."
  },
  {
   "property": "C269",
   "status": "partial",
   "theorems": [
    "C269_reply_partial",
    "C269_mark_refuted",
    "C269_piggyback_refuted"
   ],
   "note": "Proved for queues only read by get_reply. Refuted: the mark left in the queue is used as an object by the next pop; the frame of a piggyback reply is never released."
  },
  {
   "property": "C27",
   "status": "proved",
   "theorems": [
    "C27_line",
    "C27_once",
    "C27_order",
    "C27_awake",
    "C27_takes",
    "C27_waiters"
   ],
   "note": "Items of batches of unlocked pushes are covered by the order; the absence of lost wake-ups is for queues used without batches of several items (see C28)."
  },
  {
   "property": "C270",
   "status": "partial",
   "theorems": [
    "C270_frames_partial",
    "C270_open_refuted",
    "C270_unset_refuted"
   ],
   "note": "Proved when frames come after a handler was given and none is on its way when it is removed. Refuted: a frame before open_channel stored the handler, or waiting when it is removed, calls NULL."
  },
  {
   "property": "C271",
   "status": "partial",
   "theorems": [
    "C271_content_partial",
    "C271_none_refuted",
    "C271_size_refuted"
   ],
   "note": "Proved for sizes from -1 to the length (exactly when it is undefined is also proved). Refuted: None with -1, None with a size in send_rpy, sizes past the end and negative ones."
  },
  {
   "property": "C272",
   "status": "partial",
   "theorems": [
    "C272_events_partial",
    "C272_raise_refuted",
    "C272_remove_refuted"
   ],
   "note": "Proved: no use after release, nothing after the release, references balanced without exceptions. Refuted: an exception keeps one reference to the context for ever; remove_event releases nothing."
  },
  {
   "property": "C273",
   "status": "partial",
   "theorems": [
    "C273_setup_lives_partial",
    "C273_setup_values",
    "C273_no_leak_refuted",
    "C273_any_use_refuted"
   ],
   "note": "Proved for programs that own the reference each connection takes, and for no leak if origin and host are configured once. Refuted: configured twice, the earlier string is lost; the reference is consumed by the first connection."
  },
  {
   "property": "C274",
   "status": "partial",
   "theorems": [
    "C274_verified_partial",
    "C274_by_default_refuted"
   ],
   "note": "The certificate is verified exactly if it was configured last to be. Refuted: the documented default."
  },
  {
   "property": "C275",
   "status": "partial",
   "theorems": [
    "C275_waits_partial",
    "C275_within_refuted"
   ],
   "note": "Proved from one second on. Refuted below: the handshake is waited for 60 seconds."
  },
  {
   "property": "C276",
   "status": "partial",
   "theorems": [
    "C276_client_partial",
    "C276_asked",
    "C276_ipv6_refuted",
    "C276_proxy_refuted",
    "C276_options_refuted"
   ],
   "note": "Proved for the result, the headers and the TLS mark. Refuted: names of IPv6 hosts are cut, the proxy is not used, and connection options are never released."
  },
  {
   "property": "C277",
   "status": "proved",
   "theorems": [
    "C277_named",
    "C277_others",
    "C277_once"
   ],
   "note": "For every accepted connection and header."
  },
  {
   "property": "C278",
   "status": "partial",
   "theorems": [
    "C278_let_in_partial",
    "C278_refused_refuted",
    "C278_ready_refuted"
   ],
   "note": "Proved for connections let in. Refuted: a refused one is used after its release; the ready handler is never called."
  },
  {
   "property": "C279",
   "status": "partial",
   "theorems": [
    "C279_detected_partial",
    "C279_state",
    "C279_every_tls_refuted",
    "C279_released_refuted"
   ],
   "note": "Proved for GET, TLS records of version 3.1 and BEEP greetings. Refuted: other TLS versions are not recognised; a failed handshake loses a noPoll connection."
  },
  {
   "property": "C28",
   "status": "partial",
   "theorems": [
    "C28_batch_refuted",
    "C28_partial"
   ],
   "note": "False: one thread is woken however many items are pushed between lock and unlock. True with one item."
  },
  {
   "property": "C280",
   "status": "proved",
   "theorems": [
    "C280_safe"
   ],
   "note": "for every careful program, as ValSpec.fair says"
  },
  {
   "property": "C281",
   "status": "partial",
   "theorems": [
    "C281_no_leak_partial",
    "C281_refuted"
   ],
   "note": "proved if nothing contains itself; refuted: an array added to itself is never released"
  },
  {
   "property": "C282",
   "status": "partial",
   "theorems": [
    "C282_added",
    "C282_set",
    "C282_refuted",
    "C282_set_refuted",
    "C282_full_refuted",
    "C282_get_refuted"
   ],
   "note": "what is read is proved; refuted: array_set does not release the value replaced; a call filled by position is not released; a value created for a full call is lost; a value set beyond those added is not read"
  },
  {
   "property": "C283",
   "status": "partial",
   "theorems": [
    "C283_copy",
    "C283_kept",
    "C283_refuted"
   ],
   "note": "proved for all but dates; refuted: a date is not copied"
  },
  {
   "property": "C284",
   "status": "partial",
   "theorems": [
    "C284_names_partial",
    "C284_types_partial",
    "C284_refuted",
    "C284_part_refuted"
   ],
   "note": "proved for structs with all their members and known types; refuted: an unknown type accepts any member, a struct not filled reads a NULL pointer"
  },
  {
   "property": "C285",
   "status": "partial",
   "theorems": [
    "C285_text",
    "C285_fault",
    "C285_other",
    "C285_shown",
    "C285_struct_refuted",
    "C285_array_refuted",
    "C285_leak_refuted",
    "C285_twice_refuted",
    "C285_gone_refuted"
   ],
   "note": "strings and faults proved; refuted: the struct or array given was released; a struct asked for as a string leaks; the fault text released as documented is released twice; a second equal fault releases the first text"
  },
  {
   "property": "C286",
   "status": "partial",
   "theorems": [
    "C286_exact",
    "C286_accepts",
    "C286_optional_partial",
    "C286_last_refuted",
    "C286_excess_refuted",
    "C286_quiet_refuted"
   ],
   "note": "exact for descriptions without optional parameters, and no right call is refused; refuted: the last optional parameter given is not checked, any number of them is accepted, and an object of another type is refused without an error"
  },
  {
   "property": "C287",
   "status": "partial",
   "theorems": [
    "C287_fifo_partial",
    "C287_released",
    "C287_boolean_refuted"
   ],
   "note": "proved for all values but booleans; refuted: a boolean comes out as the queue itself, or as the time given to timedpop"
  },
  {
   "property": "C288",
   "status": "partial",
   "theorems": [
    "C288_exclusive_partial",
    "C288_left_partial",
    "C288_unlock",
    "C288_nested_refuted",
    "C288_listeners_refuted",
    "C288_waiting_refuted"
   ],
   "note": "proved when only the main program registers handlers and wait_listeners is not used; refuted: a handler registered by a handler runs under another lock, wait_listeners returns without the lock, and a handler that waits in a queue keeps the lock"
  },
  {
   "property": "C289",
   "status": "partial",
   "theorems": [
    "C289_readable_partial",
    "C289_time",
    "C289_pause",
    "C289_ever",
    "C289_negative",
    "C289_late_refuted",
    "C289_input_refuted"
   ],
   "note": "proved when the descriptor is made before any handler; refuted: made while a handler waits it misses another one, and without it wait_events watches the standard input"
  },
  {
   "property": "C29",
   "status": "proved",
   "theorems": [
    "C29_map",
    "C29_once",
    "C29_released",
    "C29_references"
   ],
   "note": ""
  },
  {
   "property": "C290",
   "status": "partial",
   "theorems": [
    "C290_top",
    "C290_room_partial",
    "C290_void",
    "C290_first_partial",
    "C290_event_refuted",
    "C290_room_refuted"
   ],
   "note": "proved for the answers read on the top of the stack and for the first event of a thread; refuted: later events get the answer of the first call, and the stack runs out of places after 17 calls"
  },
  {
   "property": "C291",
   "status": "partial",
   "theorems": [
    "C291_same",
    "C291_apart_partial",
    "C291_refuted"
   ],
   "note": "the same state for a thread is proved; refuted: threads whose identifiers agree in the low 32 bits share one"
  },
  {
   "property": "C292",
   "status": "partial",
   "theorems": [
    "C292_whole_partial",
    "C292_part",
    "C292_cut_refuted",
    "C292_beyond_refuted"
   ],
   "note": "sizes within the string are proved; refuted: -1 cuts the string at a NUL, and a size beyond the string reads other memory"
  },
  {
   "property": "C293",
   "status": "partial",
   "theorems": [
    "C293_safe_partial",
    "C293_freed_partial",
    "C293_tls_closes",
    "C293_tls_refuted",
    "C293_leak_refuted"
   ],
   "note": "proved without failed TLS (and without close for the release); refuted: after a TLS attempt that fails two objects count as one reference, and a connection closed by a handler is never released"
  },
  {
   "property": "C294",
   "status": "partial",
   "theorems": [
    "C294_known",
    "C294_full",
    "C294_accept",
    "C294_unknown_refuted"
   ],
   "note": "known names and answers are proved; refuted: any unknown name is taken for KERBEROS_V4"
  },
  {
   "property": "C295",
   "status": "proved",
   "theorems": [
    "C295_values"
   ],
   "note": "For applications that follow the rules of fits (DataSpec.v): what is given with a destroy function is given once, other keys last."
  },
  {
   "property": "C296",
   "status": "proved",
   "theorems": [
    "C296_once",
    "C296_accounted",
    "C296_released"
   ],
   "note": "Under the same rules; what is taken back with delete_key_data or delete_data is the application's again."
  },
  {
   "property": "C297",
   "status": "partial",
   "theorems": [
    "C297_null",
    "C297_leak_refuted"
   ],
   "note": "Refuted: the key is neither stored nor released, its destroy function is ignored (proved for every state)."
  },
  {
   "property": "C298",
   "status": "partial",
   "theorems": [
    "C298_again",
    "C298_refuted"
   ],
   "note": "Refuted: the value is freed and stays stored; its holder then frees it a second time (proved for every history)."
  },
  {
   "property": "C299",
   "status": "proved",
   "theorems": [
    "C299_valid"
   ],
   "note": ""
  },
  {
   "property": "C30",
   "status": "partial",
   "theorems": [
    "C30_notified_partial",
    "C30_stolen_refuted",
    "C30_gap_refuted",
    "C30_stale_refuted"
   ],
   "note": "A notification releases all waiters if no thread comes to wait meanwhile; otherwise the wake-up can be stolen, missed, or reported without change (refuted)."
  },
  {
   "property": "C300",
   "status": "partial",
   "theorems": [
    "C300_refuted"
   ],
   "note": "Refuted: the value replaced is freed at once, whoever has it."
  },
  {
   "property": "C301",
   "status": "proved",
   "theorems": [
    "C301_accepted"
   ],
   "note": ""
  },
  {
   "property": "C302",
   "status": "proved",
   "theorems": [
    "C302_unknown",
    "C302_twice",
    "C302_no_value",
    "C302_free"
   ],
   "note": ""
  },
  {
   "property": "C303",
   "status": "partial",
   "theorems": [
    "C303_obligatory",
    "C303_depends_partial",
    "C303_related",
    "C303_relate_refused",
    "C303_made_obligatory",
    "C303_depends_refuted"
   ],
   "note": "Obligatory arguments proved. Dependencies proved when no exclusion is broken; refuted otherwise: the checks end at the first exclusion broken."
  },
  {
   "property": "C304",
   "status": "partial",
   "theorems": [
    "C304_said",
    "C304_refuted"
   ],
   "note": "Refuted: a message is printed (proved for every line) and the program goes on with both defined."
  },
  {
   "property": "C305",
   "status": "partial",
   "theorems": [
    "C305_value_refuted",
    "C305_name_refuted"
   ],
   "note": "Refuted: -5 is taken as an option (-15 is not), and a name that begins with help shows the help."
  },
  {
   "property": "C306",
   "status": "partial",
   "theorems": [
    "C306_refuted"
   ],
   "note": "Refuted: /a.idl is taken as a Windows option unless a Unix option came before."
  },
  {
   "property": "C307",
   "status": "partial",
   "theorems": [
    "C307_installed",
    "C307_refused",
    "C307_apart_partial",
    "C307_refuted"
   ],
   "note": "Names stay apart when the new short name is no long name already installed; refuted otherwise. A refusal may also come from a short name that only begins as the new one."
  },
  {
   "property": "C308",
   "status": "partial",
   "theorems": [
    "C308_null",
    "C308_over_partial",
    "C308_refuted"
   ],
   "note": "No null pointer, proved. Lengths proved when the options on the line have six bytes or more; refuted for short ones such as -v."
  },
  {
   "property": "C309",
   "status": "proved",
   "theorems": [
    "C309_references_are_owners"
   ],
   "note": ""
  },
  {
   "property": "C31",
   "status": "partial",
   "theorems": [
    "C31_deadline_partial",
    "C31_early",
    "C31_deadline_refuted"
   ],
   "note": "Exact except when the microseconds add up to one second: then a second early."
  },
  {
   "property": "C310",
   "status": "partial",
   "theorems": [
    "C310_fair_uses_are_safe_partial"
   ],
   "note": "Proved under the conditions of fair (LifeSpec.v); without them it is false: see C311, C312 and C316."
  },
  {
   "property": "C311",
   "status": "partial",
   "theorems": [
    "C311_detached_channel_is_safe_refuted"
   ],
   "note": "Refuted: the detach leaves the pointer to the pool in the channel, and the free of the channel follows it."
  },
  {
   "property": "C312",
   "status": "partial",
   "theorems": [
    "C312_detach_returns_refuted"
   ],
   "note": "Refuted: the last reference is released with the mutex of pools locked, and the free of the channel locks it again."
  },
  {
   "property": "C313",
   "status": "partial",
   "theorems": [
    "C313_members_are_open_refuted"
   ],
   "note": "Refuted: a channel closed by itself or by its peer stays in the list of its pool."
  },
  {
   "property": "C314",
   "status": "partial",
   "theorems": [
    "C314_attached_channel_names_its_pool_refuted",
    "C314_pool_named_has_the_channel_refuted"
   ],
   "note": "Refuted both ways: attach does not set the pool and detach does not clear it."
  },
  {
   "property": "C315",
   "status": "proved",
   "theorems": [
    "C315_new_pool",
    "C315_add",
    "C315_remove",
    "C315_close"
   ],
   "note": ""
  },
  {
   "property": "C316",
   "status": "partial",
   "theorems": [
    "C316_remove_returns_refuted"
   ],
   "note": "Refuted: channels are closed with the mutex of pools locked, which is not recursive."
  },
  {
   "property": "C317",
   "status": "partial",
   "theorems": [
    "C317_result",
    "C317_one_mechanism_partial",
    "C317_user_handler_refuted"
   ],
   "note": "The result and the mechanism told are proved; that all handlers are of one mechanism, for users that set none. Refuted: a handler set by the user stays when the current mechanism is asked for."
  },
  {
   "property": "C318",
   "status": "partial",
   "theorems": [
    "C318_same_mechanism_partial",
    "C318_other_thread_refuted",
    "C318_set_running_refuted"
   ],
   "note": "Proved if no other thread has a set during a change. Refuted otherwise: only the reader is stopped."
  },
  {
   "property": "C319",
   "status": "partial",
   "theorems": [
    "C319_complete",
    "C319_blind_refuted"
   ],
   "note": "That handlers are never missing is proved for all uses; refuted: with have_dispatch set over select and no dispatch, the reader asks for a dispatch that nobody does."
  },
  {
   "property": "C32",
   "status": "partial",
   "theorems": [
    "C32_stamp_partial",
    "C32_stamp_refuted"
   ],
   "note": "Exact except when the microseconds add up to one second: then a second early."
  },
  {
   "property": "C320",
   "status": "proved",
   "theorems": [
    "C320_set"
   ],
   "note": ""
  },
  {
   "property": "C321",
   "status": "partial",
   "theorems": [
    "C321_of_the_two",
    "C321_mixed_refuted"
   ],
   "note": "Each handler is of one of the two (proved); the whole may be mixed (refuted): before the reader runs nothing keeps the calls apart."
  },
  {
   "property": "C322",
   "status": "proved",
   "theorems": [
    "C322_made"
   ],
   "note": ""
  },
  {
   "property": "C323",
   "status": "partial",
   "theorems": [
    "C323_failed_partial",
    "C323_defined_partial",
    "C323_leak_refuted",
    "C323_low_leak_refuted",
    "C323_getsockname_refuted"
   ],
   "note": "Refuted: the read side is left open when connect or accept fails, a listener with a descriptor up to 2 is left open, and a failure of getsockname is not seen (the check is < -1). Proved: with the standard descriptors open, nothing but the descriptor in descf[0] is left."
  },
  {
   "property": "C324",
   "status": "partial",
   "theorems": [
    "C324_paired_partial",
    "C324_guest_refuted"
   ],
   "note": "Refuted: accept takes the first connection waiting, which may be of another program. Proved when no other connects."
  },
  {
   "property": "C325",
   "status": "partial",
   "theorems": [
    "C325_first_partial",
    "C325_same",
    "C325_dead_refuted"
   ],
   "note": "Refuted: after a call that failed at connect or accept, the next gives the socket that was left. Proved for the first call, and that a descriptor given is given again."
  },
  {
   "property": "C326",
   "status": "partial",
   "theorems": [
    "C326_returned_partial",
    "C326_run"
   ],
   "note": "Proved for processes with stdin, stdout and stderr open; without them see C323_low_leak_refuted."
  },
  {
   "property": "C327",
   "status": "partial",
   "theorems": [
    "C327_read_partial",
    "C327_write_partial",
    "C327_data"
   ],
   "note": "Proved when the error queue of the thread is empty, close_notify did not come before and no other thread uses the object in between; that octets moved are told is proved without these."
  },
  {
   "property": "C328",
   "status": "partial",
   "theorems": [
    "C328_apart_partial",
    "C328_write_refuted",
    "C328_handler_refuted"
   ],
   "note": "Refuted: a write that fails in the protocol, or with a failure handler of the user also a read, leaves its entry in the error queue of the thread, and SSL_get_error takes it for the next connection. Proved for reads without such a handler and writes that do not fail so."
  },
  {
   "property": "C329",
   "status": "partial",
   "theorems": [
    "C329_blocked_refuted",
    "C329_failed_refuted",
    "C329_closed_refuted"
   ],
   "note": "Refuted: SSL_get_error is called after the mutex was released, and answers for the last call of any thread."
  },
  {
   "property": "C33",
   "status": "partial",
   "theorems": [
    "C33_add",
    "C33_max_partial",
    "C33_max_refuted",
    "C33_min_partial",
    "C33_min_refuted",
    "C33_auto_refuted",
    "C33_base_refuted"
   ],
   "note": "The maximum can be passed by less than a step. Threads removed twice before the first ones are gone can leave none, by hand or automatically, and below the base size (refuted)."
  },
  {
   "property": "C330",
   "status": "partial",
   "theorems": [
    "C330_again_partial",
    "C330_handler_refuted"
   ],
   "note": "Proved without a failure handler of the user: errno makes up for the wrong result. Refuted with a handler that changes errno."
  },
  {
   "property": "C331",
   "status": "partial",
   "theorems": [
    "C331_asked_partial",
    "C331_total",
    "C331_no_options",
    "C331_context_off",
    "C331_acquire_off_refuted",
    "C331_context_refuted"
   ],
   "note": "Proved when a name is to be asked for and the context allows it. Refuted: VORTEX_SERVERNAME_ACQUIRE with axl_false has no effect, and disabling it in the context also drops the name given."
  },
  {
   "property": "C332",
   "status": "partial",
   "theorems": [
    "C332_released_partial",
    "C332_kept",
    "C332_nameinfo_refuted",
    "C332_http_refuted"
   ],
   "note": "Proved for all ends but one. Refuted: a failure of getnameinfo leaves them, and connections through a HTTP proxy never release them."
  },
  {
   "property": "C333",
   "status": "partial",
   "theorems": [
    "C333_reuse",
    "C333_free_refuted"
   ],
   "note": "That they stay through any creations is proved; refuted: freed after the call with a handler returned, the thread uses what was freed."
  },
  {
   "property": "C334",
   "status": "partial",
   "theorems": [
    "C334_ipv4_partial",
    "C334_ipv6_refuted",
    "C334_ipv6_never"
   ],
   "note": "Proved for IPv4. Refuted for IPv6: the address is read as a sockaddr_in, and the flow information is told; no IPv6 address is ever told."
  },
  {
   "property": "C335",
   "status": "partial",
   "theorems": [
    "C335_same_partial",
    "C335_set_refuted"
   ],
   "note": "Proved for any calls that ask. Refuted: the internal vortex_connection_set_host_and_port, which nothing in the repository calls, frees the string."
  },
  {
   "property": "C336",
   "status": "partial",
   "theorems": [
    "C336_null",
    "C336_retried_partial",
    "C336_no_connection_partial",
    "C336_no_connection_refuted"
   ],
   "note": "Proved for connections, and for NULL without the log. Refuted: with the log a NULL connection is read before it is compared."
  },
  {
   "property": "C337",
   "status": "partial",
   "theorems": [
    "C337_closes",
    "C337_before_partial",
    "C337_slow_refuted"
   ],
   "note": "Closing is proved for every value. That nothing is given up before is proved when the frame is taken at once; refuted with partial writes, which count as timeouts."
  },
  {
   "property": "C338",
   "status": "partial",
   "theorems": [
    "C338_whole_partial",
    "C338_blocked",
    "C338_counted_refuted"
   ],
   "note": "Proved when the frame is taken at once after any number of timeouts. Refuted: timeouts are counted all the same, and a later partial write gives the frame up."
  },
  {
   "property": "C34",
   "status": "partial",
   "theorems": [
    "C34_once",
    "C34_done_partial",
    "C34_defined"
   ],
   "note": "Never twice, in order, and always executed while the pool has threads (C33_min_refuted shows how it can have none)."
  },
  {
   "property": "C35",
   "status": "partial",
   "theorems": [
    "C35_exclusive_partial",
    "C35_exclusive_refuted",
    "C35_closed_refuted",
    "C35_available",
    "C35_released",
    "C35_released_refuted"
   ],
   "note": "Holds when calls of get_next_ready do not overlap: the mutex is released between finding a channel and marking it, so two threads can get the same one, or one already closed (refuted)."
  },
  {
   "property": "C36",
   "status": "partial",
   "theorems": [
    "C36_side",
    "C36_unused",
    "C36_apart",
    "C36_once",
    "C36_defined_partial",
    "C36_defined_refuted",
    "C36_found"
   ],
   "note": "All true of the initiator. A listener that has given all its numbers overflows an int (refuted)."
  },
  {
   "property": "C37",
   "status": "partial",
   "theorems": [
    "C37_unique",
    "C37_increase",
    "C37_defined_partial",
    "C37_defined_refuted"
   ],
   "note": "Unique and increasing. The counter is a signed int that overflows with connection 2^31 - 1 (refuted)."
  },
  {
   "property": "C38",
   "status": "proved",
   "theorems": [
    "C38_lifo"
   ],
   "note": ""
  },
  {
   "property": "C39",
   "status": "proved",
   "theorems": [
    "C39_once",
    "C39_all",
    "C39_removed",
    "C39_not_found",
    "C39_order"
   ],
   "note": "For handlers whose thread can be created (C39_all) and until the library ends; handlers are started in the order of the list, each in its own thread."
  },
  {
   "property": "C40",
   "status": "partial",
   "theorems": [
    "C40_order_partial",
    "C40_all_partial",
    "C40_empty_refuted",
    "C40_lost_refuted",
    "C40_taken_refuted",
    "C40_late_refuted",
    "C40_mime_refuted",
    "C40_backlog_refuted",
    "C40_piggyback_refuted"
   ],
   "note": "Any number of frames and any interleaving of the threads of the pool: the handler is called in order, one call at a time, each frame once, and with all of them once the pool is idle. Conditions of the partial theorems: frames with content, none given to somebody else, their size not changed by the handler, at most 2^32 octets waiting, serialisation enabled before the first frame. Each condition is needed, refuted without: an empty frame (NUL is always empty) is passed by the next one or lost; a reply taken by vortex_channel_wait_reply stops delivery for good; so do frames queued before the call to set_serialize and a handler that adds a MIME header; 2^32 octets of backlog make two calls overlap; if the start reply had content the frames after it are never delivered."
  },
  {
   "property": "C41",
   "status": "partial",
   "theorems": [
    "C41_sent_partial",
    "C41_closed_refuted"
   ],
   "note": "True when the reply is sent. If the connection is closed first the call never returns (refuted)."
  },
  {
   "property": "C42",
   "status": "partial",
   "theorems": [
    "C42_result",
    "C42_frame",
    "C42_kept",
    "C42_safe_partial",
    "C42_matching_partial",
    "C42_matching_ans_refuted",
    "C42_matching_reuse_refuted",
    "C42_prompt_refuted",
    "C42_lost_refuted",
    "C42_crossed_refuted",
    "C42_late_refuted"
   ],
   "note": "The value returned is a frame given to the object. Replies match when no object is used twice and those waited for are RPY or ERR; otherwise everyone else starves (refuted). Races with the close of the connection block the thread or use freed memory (refuted)."
  },
  {
   "property": "C43",
   "status": "proved",
   "theorems": [
    "C43_counted",
    "C43_connection"
   ],
   "note": "C43_counted covers channels and connections (kinds KChan, KConn) with the steps of each call; C43_connection also the references taken by the library itself when a connection is closed."
  },
  {
   "property": "C44",
   "status": "partial",
   "theorems": [
    "C44_content",
    "C44_progress",
    "C44_size_partial",
    "C44_finish_once",
    "C44_sent",
    "C44_large_refuted"
   ],
   "note": "Content and order proved for every sequence of requested sizes and through the sequencer (without MIME header); the requested size can be exceeded with a MIME header, and sizes are kept in an int."
  },
  {
   "property": "C45",
   "status": "proved",
   "theorems": [
    "C45_from",
    "C45_first"
   ],
   "note": "That new items of a list created with axl_list_always_return_1 go to the end is documented by the axl library, which is not part of the repository; C45_from holds for any place."
  },
  {
   "property": "C46",
   "status": "partial",
   "theorems": [
    "C46_exact",
    "C46_reused",
    "C46_reused_refuted"
   ],
   "note": "Exact for normalised times; with a time left by an earlier call the result may have a million microseconds and the wrong sign."
  },
  {
   "property": "C47",
   "status": "partial",
   "theorems": [
    "C47_once_partial",
    "C47_once_refuted",
    "C47_port_refuted",
    "C47_defined_refuted"
   ],
   "note": "True when calls do not overlap. There is no mutex: threads that start channels at once can change it, see it with the port, or read past its end (refuted)."
  },
  {
   "property": "C48",
   "status": "partial",
   "theorems": [
    "C48_answered_partial",
    "C48_channel_partial",
    "C48_reasons_partial",
    "C48_apart_partial",
    "C48_busy",
    "C48_number_refuted",
    "C48_refuse_refuted",
    "C48_close_refuted"
   ],
   "note": "Proved when every request has the attribute number, deferred decisions are told once and refusals only after the handler returned, and no channel is closed before the decision about it. Otherwise the code reads through a null pointer or uses freed memory (refuted). The masks may ask for no answer at all."
  },
  {
   "property": "C49",
   "status": "partial",
   "theorems": [
    "C49_answered_partial",
    "C49_accepted_partial",
    "C49_removed",
    "C49_undefined_refuted",
    "C49_referenced"
   ],
   "note": "Proved when the requests have a number, deferred requests are answered once and accepted only if nobody is closing the channel, and no channel is removed while a request that found it is being served or a call to vortex_channel_close has just begun. Otherwise the code reads through a null pointer or uses freed memory (refuted), also with well-behaved peers: a close request found while our own close ends."
  },
  {
   "property": "C50",
   "status": "proved",
   "theorems": [
    "C50_once",
    "C50_get",
    "C50_kept"
   ],
   "note": ""
  },
  {
   "property": "C51",
   "status": "partial",
   "theorems": [
    "C51_filtered",
    "C51_message_partial",
    "C51_message_refuted",
    "C51_ends_partial",
    "C51_ends_refuted"
   ],
   "note": "The result is as stated. A message left by a mask that does not filter is reported for one that does without a message (refuted), and masks that install masks never end (refuted)."
  },
  {
   "property": "C52",
   "status": "proved",
   "theorems": [
    "C52_in_order",
    "C52_closed"
   ],
   "note": "The order of the list is the one axl_list_add gives; additions during the calls are assumed to be at its end."
  },
  {
   "property": "C53",
   "status": "proved",
   "theorems": [
    "C53_itoa_exact"
   ],
   "note": "Exact behaviour for every value and every buffer size."
  },
  {
   "property": "C54",
   "status": "partial",
   "theorems": [
    "C10_ack_unsent_refuted"
   ],
   "note": "The claim is false: the code compares the acknowledgement with the window only, not with what was sent."
  },
  {
   "property": "C55",
   "status": "partial",
   "theorems": [
    "C55_not_forgotten_partial",
    "C55_lost_wakeup_refuted",
    "C55_pause_refuted"
   ],
   "note": "Proved for every schedule without pauses in which no SEQ frame is processed inside add_channel; refuted by that race and by pausing a feeder with other messages pending."
  },
  {
   "property": "C56",
   "status": "partial",
   "theorems": [
    "C56_nul_refuted"
   ],
   "note": "Exact list of reported numbers is part of C08_segmentation; the claim itself is false for an empty NUL, reported as 0."
  },
  {
   "property": "C57",
   "status": "partial",
   "theorems": [
    "C57_no_spin_partial",
    "C57_spin_refuted"
   ],
   "note": "Refuted by a race between the reader and the sequencer; proved for schedules without SEQ frames."
  },
  {
   "property": "C58",
   "status": "partial",
   "theorems": [
    "C58_more_limit_refuted"
   ],
   "note": "The claim is false: the first piece counts as outstanding, the next one blocks forever."
  },
  {
   "property": "C59",
   "status": "partial",
   "theorems": [
    "C59_release_refuted"
   ],
   "note": "The claim is false: nobody signals the condition when the connection is lost."
  },
  {
   "property": "C60",
   "status": "partial",
   "theorems": [
    "C60_stale_refuted"
   ],
   "note": "The claim is false: the second reply is stored and sent to a later message."
  },
  {
   "property": "C61",
   "status": "partial",
   "theorems": [
    "C24_body",
    "C24_joined_refuted",
    "C21_not_mime_refuted",
    "C22_nul_refuted"
   ],
   "note": "Holds for messages in one frame, false for messages in several frames."
  },
  {
   "property": "C62",
   "status": "partial",
   "theorems": [
    "C62_unlocked_partial",
    "C62_clear_refuted"
   ],
   "note": "True of insert, replace and remove; clear calls them with the table locked."
  },
  {
   "property": "C63",
   "status": "proved",
   "theorems": [
    "C63_stopped"
   ],
   "note": ""
  },
  {
   "property": "C64",
   "status": "proved",
   "theorems": [
    "C64_period"
   ],
   "note": ""
  },
  {
   "property": "C65",
   "status": "partial",
   "theorems": [
    "C65_apart",
    "C65_on_time_partial",
    "C65_on_time_refuted",
    "C65_pass_partial",
    "C65_pass_refuted"
   ],
   "note": "Handlers never overlap. Early only when microseconds and delay make exactly one second (refuted). A pass calls exactly the events due unless events are installed or removed during it (refuted)."
  },
  {
   "property": "C66",
   "status": "partial",
   "theorems": [
    "C66_last",
    "C66_removed_partial",
    "C66_removed_refuted",
    "C66_id_partial",
    "C66_id_refuted"
   ],
   "note": "No call after axl_true; at most one call, already decided, after remove_event (refuted). Identifiers are truncated addresses and can be equal (refuted)."
  },
  {
   "property": "C67",
   "status": "proved",
   "theorems": [
    "C67_defined",
    "C67_freed"
   ],
   "note": ""
  },
  {
   "property": "C68",
   "status": "partial",
   "theorems": [
    "C68_ids_partial",
    "C68_ids_refuted"
   ],
   "note": "The counter is not protected by a mutex (refuted when two threads create pools at once)."
  },
  {
   "property": "C69",
   "status": "partial",
   "theorems": [
    "C69_found_partial",
    "C69_found_refuted",
    "C69_one"
   ],
   "note": "Never two channels with a number. A refused channel is removed twice by number, so a channel created meanwhile with that number is lost (refuted)."
  },
  {
   "property": "C70",
   "status": "partial",
   "theorems": [
    "C70_previous_partial",
    "C70_previous_refuted",
    "C70_data_partial",
    "C70_data_refuted"
   ],
   "note": "The setter of the context returns the new handler (refuted). Data and handler are changed in two steps without a mutex (refuted when a frame is sent in between)."
  },
  {
   "property": "C71",
   "status": "partial",
   "theorems": [
    "C71_first_partial",
    "C71_origin",
    "C71_twice_refuted",
    "C71_error_refuted",
    "C71_other_refuted",
    "C71_content_refuted",
    "C71_defined_partial",
    "C71_defined_refuted"
   ],
   "note": "Holds for a text not seen before by the context (C71_first_partial). The cache of replies is indexed by the text only and keeps replies that were refused: the same text is accepted the second time, for another profile or in a frame ERR, and its content is lost (refuted); three validations at once use freed memory (refuted)."
  },
  {
   "property": "C72",
   "status": "partial",
   "theorems": [
    "C72_late_refuted"
   ],
   "note": "False: it is stored and never called (refuted)."
  },
  {
   "property": "C73",
   "status": "partial",
   "theorems": [
    "C73_kept_refuted",
    "C73_stuck"
   ],
   "note": "False: the flag being_closed is never reset, so no message is accepted, no later close returns and the channel stays in the table (proved for every later execution)."
  },
  {
   "property": "C74",
   "status": "partial",
   "theorems": [
    "C74_returned_partial",
    "C74_answer",
    "C74_timeout_refuted",
    "C74_type_refuted",
    "C74_inside_refuted"
   ],
   "note": "TRUE is also returned without an answer in time, after a frame of another type, and inside a close handler that then refuses (refuted). What the values say is proved for every execution."
  },
  {
   "property": "C75",
   "status": "partial",
   "theorems": [
    "C75_crossed_partial",
    "C75_window_refuted"
   ],
   "note": "Proved when the wait object is already set. A request served between the flag and the wait object is answered with ok and not seen by the call, which then is refused by the peer and leaves the channel in the table (refuted)."
  },
  {
   "property": "C76",
   "status": "proved",
   "theorems": [
    "C49_removed"
   ],
   "note": ""
  },
  {
   "property": "C77",
   "status": "proved",
   "theorems": [
    "C43_counted"
   ],
   "note": "The kinds KQueue, KHash, KCtx and KFeeder of the theorem."
  },
  {
   "property": "C78",
   "status": "partial",
   "theorems": [
    "C78_frame_partial",
    "C78_race_refuted"
   ],
   "note": "Proved if no two calls overlap in time; refuted otherwise, since the counter of a frame has no mutex (the documentation of vortex_frame_ref says it is not thread safe)."
  },
  {
   "property": "C79",
   "status": "partial",
   "theorems": [
    "C79_null_partial",
    "C79_race_refuted"
   ],
   "note": "Set to NULL only if released; but if two calls overlap the one that releases the context may leave the pointer dangling."
  },
  {
   "property": "C80",
   "status": "partial",
   "theorems": [
    "C80_kept_refuted",
    "C80_refused_refuted"
   ],
   "note": "Refuted for callers without a reference: there is a window between the decrement to 0 and the release. For callers that own one see C43 and C77."
  },
  {
   "property": "C81",
   "status": "partial",
   "theorems": [
    "C81_reply_refuted"
   ],
   "note": "Refuted: the content of a start reply is delivered as an RPY with number 0 and is given to the thread that waits for the reply to message 0."
  },
  {
   "property": "C82",
   "status": "partial",
   "theorems": [
    "C82_skip_partial",
    "C82_default_refuted"
   ],
   "note": "Refuted for a path that was already added to the domain \"default\" (vortex_support.c:424 checks that domain instead of the one requested); otherwise the path is kept."
  },
  {
   "property": "C83",
   "status": "proved",
   "theorems": [
    "C04_any_fragmentation"
   ],
   "note": "The frames must be such that the reader accepts them (receivable); a read that ends the connection is one of the two shutdowns of C04."
  },
  {
   "property": "C84",
   "status": "proved",
   "theorems": [
    "C07_send_raw"
   ],
   "note": "Every result of send and of the wait for the socket."
  },
  {
   "property": "C85",
   "status": "proved",
   "theorems": [
    "C24_body",
    "C24_unique"
   ],
   "note": "Contents received in one frame; joined messages are C24 and C61."
  },
  {
   "property": "C86",
   "status": "proved",
   "theorems": [
    "C25_lookup",
    "C25_content_type",
    "C25_no_content_type"
   ],
   "note": "As MIME entity in MimeSpec.v; repeated usual headers are C25."
  },
  {
   "property": "C87",
   "status": "proved",
   "theorems": [
    "C34_once",
    "C34_defined"
   ],
   "note": "That tasks are executed at all is C34."
  },
  {
   "property": "C88",
   "status": "proved",
   "theorems": [
    "C36_side",
    "C36_unused",
    "C36_once",
    "C36_apart"
   ],
   "note": "A listener that runs out of numbers is C36."
  },
  {
   "property": "C89",
   "status": "proved",
   "theorems": [
    "C36_found"
   ],
   "note": "The call makes at most 2^30 tries."
  },
  {
   "property": "C90",
   "status": "proved",
   "theorems": [
    "C42_result",
    "C42_frame",
    "C42_kept"
   ],
   "note": "Which frame is given to which object, and the races with the close, are C42."
  },
  {
   "property": "C91",
   "status": "proved",
   "theorems": [
    "C46_exact"
   ],
   "note": "Times left by earlier calls are C46."
  },
  {
   "property": "C92",
   "status": "proved",
   "theorems": [
    "C48_busy"
   ],
   "note": "In every state with the request being checked and the connection open."
  },
  {
   "property": "C93",
   "status": "proved",
   "theorems": [
    "C51_filtered"
   ],
   "note": "If the call ends; that it may not end is C51."
  },
  {
   "property": "C94",
   "status": "proved",
   "theorems": [
    "C65_apart",
    "C66_last"
   ],
   "note": ""
  },
  {
   "property": "C95",
   "status": "proved",
   "theorems": [
    "C69_one"
   ],
   "note": ""
  },
  {
   "property": "C96",
   "status": "proved",
   "theorems": [
    "C44_content",
    "C44_progress",
    "C44_finish_once"
   ],
   "note": "Files of 2^31 octets or more are C44."
  },
  {
   "property": "C97",
   "status": "proved",
   "theorems": [
    "C23_bound",
    "C23_exact",
    "C23_limit"
   ],
   "note": "What is delivered with the last frame is C23."
  },
  {
   "property": "C98",
   "status": "proved",
   "theorems": [
    "C22_kept",
    "C22_out_of_place"
   ],
   "note": "The last frame is C22."
  },
  {
   "property": "C99",
   "status": "proved",
   "theorems": [
    "C17_terminates"
   ],
   "note": ""
  }
 ]
}