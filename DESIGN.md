# Design of the formal model of libvortex-1.1

The subject is the C source in /repo (ASPLes/libvortex-1.1).  The model is
written in Rocq (Coq 8.16.1) under `rocq/theories`, one group of files per
component:

* `XModel.v` - executable Gallina functions that follow the C functions one by
  one; each definition cites file and lines.  No proofs.
* `XSpec.v` - the small independent specification used in the statements.
* `XProofs.v` - lemmas.
* `XProps.v` - only the property theorems, their `Print Assumptions` and the
  non-vacuity examples.

Build: `cd rocq && coq_makefile -f _CoqProject -o Makefile && make -j4`.

## Conventions

* C `int`/`long`/`unsigned int` values are `Z`; wrap-around is written
  explicitly (`u32`, `s32` in `Base.v`).
* Undefined behaviour (signed overflow, out of bounds writes, NULL accesses) is
  the distinct outcome `UB` of the type `outcome` (`Base.v`).
* Bytes are `Z` (0..255), byte strings are lists.
* Concurrency is an interleaving of the critical sections the code delimits
  with its mutexes; code executed without the mutex is a separate step.
* External calls (sockets, user handlers, clocks) are arguments or oracles, and
  theorems quantify over them.
* Loops whose end is not structural take fuel with an explicit out-of-fuel
  result, and a theorem shows that it is not reached.
* Specifications are computed from logs of observations kept in the state, or
  from the list of operations, not from the fields the code uses.
* A property that the code violates is recorded as `..._refuted` with a
  concrete witness, next to the strongest positive statement that does hold
  (`..._partial` when it needs a hypothesis the property does not have).

## What is modelled

* `AgainModel.v`: How a connection is made again: vortex_connection_reconnect (src/vortex_connection.c 2725-2792), the notification of its channels (__vortex_connection_foreach_check_and_notify, 2649-2678, and __vortex_connection_check_and_notify, 2564-2646), what __vortex_connection_new (2027-2140) and vortex_connection_do_greetings_exchange (1897-2013) do with a connection that was used before, and the registration in the reader (src/vortex_reader.c 1526-1560) with its visits (990-1060). The frame reader is the one of CodecModel. The end of a session by a thread other than the reader is [end_session]. A timeout is set for the greetings: when the new socket gives nothing more, it runs out. What is parsed of the greetings is a parameter. Allocations do not fail.
* `AliveModel.v`: The ALIVE profile: the check that a connection works (alive/vortex_alive.c): enabling it (486-545), the creation of its channel (__vortex_alive_create_channel, 357-433, and __vortex_alive_channel_created, 292-355), the periodic check (__vortex_alive_do_check, 249-290), the failure (197-240) and the end of the connection (121-135). One connection. Each call and each step of the events of the thread pool is atomic; removing an event works at once (EventModel is about that). The limit of outstanding messages of the channel is not set. The calls to enable the check on a connection that is closed are left out, and so is the end of the context, which runs no close handlers. The sizes and times fit in their types.
* `ArgModel.v`: The command line of xml-rpc-gen: the options installed, the parsing of the arguments and what it leaves defined (xml-rpc-gen/exarg.c 639-668, 681-795, 1036-1250, 1406-1419, 1489-1541, 1634-1790, 1907-1925). Arguments are C strings without their NUL. Options refer to others by their place in the list. A program that exits is [PExit]; what is printed is not here but for the message on exclusions, which does not exit. memcmp gives its answer at the first byte that differs: [x_over] tells that some call was given a length beyond the NUL of a string. atoi is an argument of the functions that call it. The text of help and usage, exarg_define and exarg_undef are not modelled.
* `AsyncModel.v`: The queue threads wait on (src/vortex_thread.c:984-1672): the critical sections of its mutex, with the condition variable. Items are pointers other than NULL. The list [aq_data] has the item pushed last first, as the axlList (axl_list_prepend). A thread inside of vortex_cond_wait is in [aq_blocked]; once signalled, timed out or woken for no reason it is in [aq_woken] until it gets the mutex back. POSIX lets a signal wake any blocked thread: which one is an argument of the event.
* `ChanPoolModel.v`: The channel pool (src/vortex_channel_pool.c:116-214, 640-720, 985-1120, 1205-1365) and the identifiers of pools (src/vortex_connection.c:6301-6308). A step is a critical section of the mutex of the pools of the connection, or what happens between two of them. Channels are numbered in the order they are created. What makes a channel ready on its own (open, not being closed, no reply pending) is changed by events; the pool's own mark, the data "status_busy" of the channel, is [cp_busy].
* `CloseModel.v`: The close of one channel, other than channel 0, as seen by one side: the close requests of the peer (src/vortex_channel.c:7400-7625), the answer to them (7653-7760) and the calls of the application to vortex_channel_close (5671-5928, 5943-6074). A step is what a thread does between two accesses to what it shares with the others. The references to the channel held by the threads are given by their phase: the channel is in memory while it is in the table or a thread has a reference. A frame is sent if and only if the connection is open, and none is received once it is closed. Not followed: texts, the end of the context (vortex_exit), the failures of malloc, the wait until the replies to the peer are sent (step 3 of 5814), the notification handlers of the application, and what channel 0 does with the messages (see WaitModel).
* `CodecModel.v`: Model of the BEEP frame encoder and decoder. Sources: src/vortex_support.c, src/vortex_frame_factory.c, src/vortex_channel.c (window check), src/vortex_connection.c (channel lookup).
* `ConfirmModel.v`: The reply to a start request (src/vortex_channel.c:633-822): how the side that asked for a channel decides if it was created, with the cache of replies of the context, shared by all its connections. A step is a critical section of the mutex of the cache with the code that follows it up to the next one. XML is parsed by AXL: [v_parse] is the document, any function of the payload. AXL frees the value stored when another one is stored with the same key, as in HashModel. Memory is never exhausted; the frames freed at 687 and kept at 796 are not followed.
* `ConnEndModel.v`: The close of a connection by its users: vortex_connection_close (src/vortex_connection.c 2826-2923) called by any number of threads, the reference it takes (2928-2960) and the ones it drops (3050-3091), the one of the reader (src/vortex_reader.c 1108-1116) and those of the application. A step is a critical section or an access to the connection made between two of them. The close of all the channels (557-600) is an oracle. What vortex_connection_shutdown does is in OnCloseModel: here the connection is no longer connected. An access to the connection once its memory was released is undefined behaviour.
* `ConnModel.v`: Small services of a connection, in src/vortex_connection.c: identifiers (421-437, 7154-7160), the errors of channels (3428-3475, 3543-3582), the server name (4882-4926), the masks of profiles (3893-3937, 3977-4024), the actions (5663-5745) and the handlers that choose the size of frames (5589-5656, src/vortex_channel.c:4249-4251, 4296-4318). A step is a critical section of the mutex that protects the data. Where there is no mutex, it is one access to the data shared.
* `CtxModel.v`: The life of a context: its references (src/vortex_ctx.c:647-818), the functions to call when it ends (559-606) and the end of its execution (src/vortex.c:1150-1289). A fixed number of threads share one context. What is done under ref_mutex is one step, and the accesses under exit_mutex are separate steps of the thread that holds it. A cleanup function is a number: what it does to the list of cleanups is done by events between its call and its return. The stop of the modules (1180-1233) is one step that is only seen to happen. The number of references each thread owns is not in the code: it says which thread has to give each of them back. Locking or destroying a mutex that was destroyed, destroying one that is locked and using a context that was released are undefined behaviour. The data of the context is in HashModel.
* `DataModel.v`: The data an application attaches to contexts, connections and channels, and who releases it: vortex_ctx_set_data_full and get_data (src/vortex_ctx.c 214-255), vortex_connection_set_data_full, delete_key_data and get_data (src/vortex_connection.c 5980-5988, 6031-6056, 6155-6164), vortex_channel_set_data_full, delete_data and get_data (src/vortex_channel.c 4880-4957), over the hash table (src/vortex_hash.c 270-300, 339-356, 492-521, 532-567, 582-601). Pointers are numbers, 0 is NULL; a block freed is never given out again. The content of a string does not change. The table of the axl library is a list: looking for a key reads every key stored (in the code those of a bucket). The mutex, the changes told to who waits for them and allocations that fail are not here: see HashModel. Destroy functions free the block and do nothing else.
* `DialModel.v`: How a client connects: the wait for a socket (__vortex_connection_wait_on, src/vortex_connection.c 1463-1609), the limit of sockets (7250-7280), the check of the descriptor (356-383), vortex_connection_sock_connect_common (1697-1871), __vortex_connection_new (2027-2140) and the start of vortex_connection_new_full_common (2142-2248). The kernel is a parameter: what each call gives, errno included, and the clock each time it is read. Allocations do not fail. int has 32 bits and time_t 64: an addition of ints that overflows is undefined behaviour.
* `DlvModel.v`: Who gets a frame and which references that takes: the delivery of frames (src/vortex_reader.c:588-625, 841-858), of the channel (src/vortex_channel.c:6267-6366, 6382-6532, 6563-6659) and of the profile (src/vortex_profiles.c:896-1012, 1031-1118), with the references to the channel and to the connection and the memory of the parameters of the tasks. The channels of one number of a connection are followed: the one that is in the connection and the ones that were before and are still referenced. The connection and its table hold one reference each. A step is the reception of a frame by the reader, the work of a task of the pool until it calls the handler or ends, and what it does when the handler returns; the accesses of these steps to the fields of the channel are not interleaved with others. Allocation does not fail. Reference counts have no upper limit; using a channel whose memory was released, or releasing more references than there are, is undefined behaviour. The references of the profile are in ProfModel and the order of the serialised frames in SerializeModel; the handlers do not take references to the frames.
* `EventModel.v`: The events of the thread pool (src/vortex_thread_pool.c:86-227, 969-1103): handlers called from time to time until they ask not to be. A step is a critical section of the pool's mutex, or the start or the end of a handler, which runs with the mutex unlocked. Events are blocks of memory with a reference counter; using a block that has been freed is [UB]. The list is kept by AXL, with a function (462-471) that always tells that the new element goes after: the position where a new event is inserted is an argument.
* `ExtModel.v`: Connections over external transports (external/vortex_external.c): the setup and who holds it, the mutex that keeps the handlers of the user apart, what is returned and told when a connection is created, and the descriptors a listener closes. The handlers of the user are not modelled: calls to them start and end. Connections are those of vortex_connection_new_empty_from_connection2 (src/vortex_connection.c 902-1027) with skip_naming.
* `FeederModel.v`: Model of the file payload feeder. Source: src/vortex_payload_feeder.c.
* `FlowModel.v`: Model of the window arithmetic of a channel, both directions. Source: src/vortex_channel.c. The struct fields are unsigned int (last_seq_no, consumed_seqno, seq_no_window, remote_consumed_seq_no) or int (remote_window, window_size, desired_window_size), see src/vortex_channel.c:86-204; MAX_SEQ_MOD is a 64 bit constant (src/vortex_types.h:236).
* `FrameModel.v`: Frame objects and their memory: creation, reception, copy, join, comparison, references and release (src/vortex_frame_factory.c 226-310, 960-1241, 1901-1905, 2090-2497, 2561-2610, 2767-2880, 3218-3363). The heap is a table of blocks: a block is its bytes, or [None] after free. A pointer is a block and an offset. Reading or writing outside of a block, using a block or a frame after it was freed, giving free or realloc a pointer that malloc did not return and overflowing an int are undefined behaviour. A byte that was never written is [UNDEF]. Allocations succeed. A memcpy of no bytes is accepted for any pointer. A walk over the headers that does not end (it cannot happen, see C183) is undefined behaviour too. The context of the frames is one counter of references.
* `GreetModel.v`: The greetings at the start of a session: how the message is built (src/vortex_greetings.c:64-180), how the frames of the peer are put together and checked by the initiator (vortex_greetings_process, 268-326) and by the listener (__vortex_listener_second_step_accept, src/vortex_listener.c:360-414), vortex_greetings_is_reply_ok (src/vortex_greetings.c:397-457), the cache of greetings (src/vortex_connection.c:654-812) and the loop that waits for them in vortex_connection_new (vortex_connection_do_greetings_exchange, src/vortex_connection.c:1896-2007). The channel of the frames is 0: the others do not exist yet and vortex_frame_get_next refuses their frames (src/vortex_frame_factory.c:1781). Features, languages and profiles are shorter than 2^30 octets. The XML parser, with the DTD, is a parameter. The text made to record an error with the payload of no frame (src/vortex_greetings.c:419) is what printf does with a null pointer: "(null)" with the usual library.
* `HashModel.v`: vortex_hash (src/vortex_hash.c:54-733): a table under a mutex whose changes other threads can wait for. The table of the axl library is an association list: axl_hash_get, axl_hash_exists, axl_hash_insert_full, axl_hash_delete (remove without calling destroy functions) and axl_hash_remove_deferred (remove and report what has to be destroyed). Keys are numbers standing for the classes of the key comparison function; values are pointers, 0 is NULL. Each insert gets a number, to tell the entries apart (not in the code). The foreach functions are not modelled.
* `HdrModel.v`: The MIME headers an application puts on a frame: the header nodes and their two links, vortex_frame_set_mime_header, vortex_frame_get_mime_header and the functions that walk over the headers found (src/vortex_frame_factory.c 64-224, 3389-3640). The nodes are kept in a table and the pointers between them are positions in that table, so that the sharing of a node by a chain and by a fast reference is the one of the code. The memory of the nodes is never reused (axl_factory_get), and it always succeeds.
* `HeadModel.v`: The MIME headers a channel puts before the messages it sends: the settings of the profile (src/vortex_profiles.c:309-610, 1350-1405) and of the channel (src/vortex_channel.c:1640-1656, 4047-4076), the level that decides whether there are headers and their size (__vortex_channel_get_mime_headers_size, src/vortex_channel.c:467-543), the writing of them (__vortex_channel_get_mime_headers, 560-610), the pieces of one message (2490-2496, 2519-2523, __vortex_channel_skip_mime_headers, 2988-3021) and the block of memory of the message (2526-2555, 3107-3138). One profile and its channels; the others are independent of them. The strings are C strings. The sizes fit in [int]. Messages given by a feeder get no headers and are not here. memcpy of no octets from NULL (the body of NUL) does nothing. The memory comes from axl_new, which clears it.
* `HostIpModel.v`: The IP of a connection (vortex_connection_get_host_ip, src/vortex_connection.c 4762-4844; vortex_support_inet_ntoa, src/vortex_support.c 933-953). Addresses are the octets of sockaddr_in (16) and sockaddr_in6 (28) as the kernel writes them, cut to the size of the buffer given. The text of inet_ntoa is its four numbers. The strings of the connection are places of a memory ([None], freed). One thread; the mutex is left out.
* `HttpModel.v`: Model of the connections created through an HTTP proxy with the CONNECT method: the request, the reply of the proxy, the greetings that follow and what the caller is told. Source: http/vortex_http.c. The reading of a line is vortex_frame_readline, modelled with the codec.
* `IdleModel.v`: The notification of idle connections: vortex_ctx_set_idle_handler and vortex_ctx_notify_idle (src/vortex_ctx.c:477-545), the stamps of the connection (src/vortex_connection.c:4665-4731) and the check done by the reader (src/vortex_reader.c:978-990). One connection that is watched by the reader. The four stores of vortex_ctx_set_idle_handler are separate steps, and so are the accesses of the reader and of the task of the pool; one thread at a time configures the handler. The time is the number of seconds of time(2). The flag "vo:co:idle" is data of the connection. Allocation does not fail, and references and totals have no upper limit. Using a connection without references is undefined behaviour.
* `InvokeModel.v`: The invocation of XML-RPC methods: the data of an invocation, the frame received handler of the channel and who is notified of what (vortex_xml_rpc_invoke 1405-1454, __vortex_xml_rpc_invoke 1324-1375, __vortex_xml_rpc_invoke_process_reply 1160-1300 and the boot of the channel 495-620 of xml-rpc/vortex_xml_rpc.c; vortex_channel_set_received_handler 1812-1824, vortex_channel_is_ready 8155-8168 and the call of the handler 6460 of src/vortex_channel.c; the list of outstanding messages at src/vortex_reader.c 473-490). One channel, already booted, any number of invocations by any threads. A reply leaves the outstanding messages when the reader reads it, and is delivered later by a thread of the pool, with the data the channel has then. The content of a message is the invocation it answers. The method calls are the ones the library must release (the default). The two stores of vortex_channel_set_received_handler are one step; the checks on the profile and the state of the channel (1419-1434) hold. Use of memory released is undefined behaviour.
* `IoModel.v`: The I/O waiting mechanisms (src/vortex_io.c): the size of a wait set (86-105), the sets of select(2) (112-287), poll(2) (293-577) and epoll(2) (585-883), and what each dispatches. Waiting for READ_OPERATIONS, as the reader does. What the kernel reports, whether an allocation succeeds and whether epoll_ctl accepts a descriptor are arguments. Writing beyond an array is undefined behaviour; so is FD_ISSET of a descriptor beyond FD_SETSIZE.
* `LifeModel.v`: The life of channel pools and of the references they hold (src/vortex_channel_pool.c 137-214, 223-288, 513-557, 667-678, 690-745, 764-777, 789-905, 955-1090; src/vortex_channel.c 5050-5087, 7921-7939, 9054-9084; src/vortex_connection.c 6321-6356). One connection. Each operation runs to its end; [l_lock] tells that channel_pool_mutex, which is not recursive, is held by it. A channel is its number, and numbers are not used twice. A channel belongs to the connection until it is closed by either side: the connection then drops its reference. [h_app] counts the references the application took; nothing reads it. Starting a channel succeeds; [LNew n] and [LAdd p n] are given the number of channels that were created. The end of the connection is not modelled.
* `LinkModel.v`: Both ends of one direction of a channel: a sender (sequencer and window data), the frames in transit, the receiver and the SEQ frames in transit. The connection is an ordered byte stream, so each direction is a queue. Sources: src/vortex_sequencer.c:425-512, src/vortex_channel.c, src/vortex_reader.c:129-194, 383-406.
* `ListenModel.v`: Model of the listener side: the handlers that accept or refuse a new connection, the handlers notified when channels are added or removed, the wait and unlock of the main thread, the detection of other transports on the same port and the shutdown of a listener. Source: src/vortex_listener.c and, for the channel handlers, src/vortex_connection.c.
* `LogModel.v`: The log and the errors recorded: vortex_log_is_enabled and the other settings (src/vortex.c 106-345), the items of configuration (vortex_conf_get 362-442, vortex_conf_set 463-570), the handlers (594-718), _vortex_log_common and _vortex_log (725-885), and the record of an error of a connection (__vortex_connection_shutdown_and_record_error, src/vortex_connection.c 3480-3527) with the places that give it text of the peer (src/vortex_frame_factory.c 1887-1890, src/vortex_greetings.c 418-423). The library is built with ENABLE_VORTEX_LOG. printf is that of the C standard for the conversions %d, %s and %%, and glibc's for a NULL string; other conversions, a conversion without its argument or with one of other type, and a string that is not terminated are undefined behaviour.
* `LoopModel.v`: The reader loop (src/vortex_reader.c): the queue of requests (679-730, 875-962), the change of the I/O mechanism (735-770), foreach (774-823), the set to watch (968-1084), what is done with the sockets that changed (1086-1199), stop (1208-1249), detection of wrong sockets (1289-1363), the loop (1365-1487) and the functions that push requests (1511-1794). The loop is a machine of small steps: one request popped, one connection of a list looked at, one wait. Between two steps the users act: they push requests, connections go down, are flagged to be unwatched, are blocked. What the I/O mechanism says (whether a socket can be added, what the wait gives) comes with the step. The reference a request for a listener carries is the one its creator had. The queue is released when the loop ends: a request pushed after that is undefined behaviour. Idle checks and the resize of the thread pool are left out.
* `LuaModel.v`: The Lua bindings (lua-vortex/src): the check of the parameters, the queues, the lock that lets one thread at a time run Lua, the descriptor that tells that a handler waits, the stacks the handlers run on, the references to connections, and the names of the SASL mechanisms. The Lua library is not in the repository: its stack, its registry of references (luaL_ref) and its type tests are modelled as its manual describes them. Memory is never exhausted.
* `MechModel.v`: The table of I/O handlers of a context, and the sets of sockets made with it (src/vortex_io.c 918-1635; the reader, src/vortex_reader.c 735-770, 1365-1485; the other threads that wait, src/vortex_connection.c 1463-1600 and src/vortex_frame_factory.c 1955-2061). A set made by the handlers of one mechanism is memory of that mechanism: given to the handlers of another it is undefined behaviour. What the handlers do to the set is in the area Event. The reader releases its set, waits for the table to change and makes a new one, as in __vortex_reader_change_io_mech when no other request comes between (the area Loop has those); here that is one step with the change. The have_dispatch of the library returns true, and one of the user is taken to.
* `MimeModel.v`: Recognising the MIME headers of a received frame and looking headers up (src/vortex_frame_factory.c:76-224, 2561-2880, 3059-3363, 3532-3658). The bytes of a frame live in a block of memory whose end matters, because the code reads past the content: [sock_mem] is the block of a frame read from the socket and [join_mem] the block of a frame built from fragments. A read outside of the block is [UB]. A position [iterator] is kept as the pair of the memory from there on and [frame->size - iterator], which goes below zero when the code runs past the content.
* `MsgModel.v`: The management messages of channel 0: how they are written (src/vortex_frame_factory.c 2883-2919, 2963-3053), how their kind is told and how their values are read (src/vortex_channel.c 5333-5399, 6768-6905, 7394-7424, 7792-7845). A document is a tree: [axl_doc_parse] is AXL's, given as an argument, as is the answer of the DTD. The content of an element is its character data, empty if there is none. Strings of C are lists of octets without zero. A null pointer given to atoi and an atoi out of the range of int are undefined behaviour.
* `OnCloseModel.v`: The handlers called when a connection is closed: their installation and removal (src/vortex_connection.c:6684-6712, 6769-6816, 6840-6882), the end of the connection (5772-5860), the calls of the handlers (4979-5043, 5053-5121) and the references that keep the connection in memory (2928-2958, 3049-3089). A step is a critical section of one of the mutexes of the connection or the access made between two of them. Each handler installed gets a number of its own, so that two installations of the same function can be told apart. The counter of references has no upper limit here; memory is never exhausted.
* `OptsModel.v`: Connection options: how they are read, how long they live and the serverName they ask for (src/vortex_connection.c 60-275, 1897-2014, 2036-2170; src/vortex_channel.c 1361-1365; http/vortex_http.c 202-206, 256, 340-350). Names are numbers. How far the creation of a connection comes is an argument. An option item other than the three known ones is not modelled, nor failures of memory.
* `OutModel.v`: Model of the requesting side of a channel: numbering of the messages sent, the list of messages not answered yet, the outstanding limit, and the checks of the reader on incoming replies. Source: src/vortex_channel.c, src/vortex_reader.c.
* `PendModel.v`: Transports that hold data back: the reader over TLS and over WebSocket, where the socket does not tell all there is to read (__vortex_reader_process_socket_pending, src/vortex_reader.c 646-666; vortex_tls_ssl_read, tls/vortex_tls.c 444-527; vortex_websocket_read, web-socket/vortex_websocket.c 362-423), and the greetings a client awaits on them (vortex_greetings_process, src/vortex_greetings.c 286-320; vortex_connection_do_greetings_exchange, src/vortex_connection.c 1915-1965). The transport takes records (TLS) or messages (WebSocket) whole from the socket: a read gives bytes of one of them and keeps the rest. OpenSSL and noPoll are not in the repository: a read gives what is held, or takes the next record, or says there is nothing when none is complete. The frames are read by vortex_frame_get_next as in CodecModel. A connection has no preread handler here.
* `PiggyModel.v`: The content that comes with the reply to a start request (vortex_channel_set_piggyback, src/vortex_channel.c:8462-8497, have_piggyback 8449-8460, get_piggyback 8424-8438 with vortex_hash_lookup_and_clear, src/vortex_hash.c:397-424), its delivery by the thread that creates the channel (src/vortex_channel.c:1060-1085) through vortex_channel_invoke_received_handler (6563-6659), and by vortex_channel_get_reply (8363-8369). A step is a critical section of the mutex of the data of the channel or of receive_mutex. The frame made of the content has type RPY and number 0 (8478-8487).
* `PipeModel.v`: The portable pipe of the library (src/vortex_support.c 954-1083, src/vortex_listener.c 483-495) and the descriptor of events that the Lua binding makes with it (lua-vortex/src/lua-vortex.c 764-792, 936-984). The kernel answers each call: its answers are the argument [ans]. The state is the set of descriptors the process has open. The socket options and the log are left out. The address written by getsockname is indeterminate when the call fails; its use is undefined behaviour here. Other threads do not open or close descriptors during a call.
* `PoolModel.v`: The thread pool (src/vortex_thread_pool.c:45-423, 487-928): tasks, stop beacons and the automatic resize. Its events are in [EventModel]. The queue is that of [AsyncModel]; what goes through it is a beacon (1, 2 or 3) or a task, whose address is modelled as 4 plus a number that is different for each task. The state is that of the threads between two critical sections of the mutexes involved (the pool's, the queue's, and that of the list of stopped threads). Creating several threads is one step, which happens inside the pool's mutex. Not modelled: the release of the pool after its threads have ended (831-866).
* `ProfModel.v`: The registry of profiles (src/vortex_profiles.c:46-187, 309-476, 638-687, 1131-1152, 1203-1315, 1413-1429) and how a start request, the close of a channel, a frame received at the first level and a greeting use it (711-859, 872-887, 896-1118; src/vortex_greetings.c:119-180). A step is an access to a field of a profile that is shared between threads, or a critical section of a mutex. The mutex of the list (profiles_list_mutex) is followed; the one of the table is held only inside a step. Reading or writing a profile whose memory was released is undefined behaviour; two accesses at the same time to a field are not, as if words were atomic. A profile starts with its memory at zero (axl_new). Names are identified by numbers, as are the functions and the data of the application. Reference counts have no upper limit. MIME settings are in HeadModel. AXL keeps the list in the order of insertion; the order of the table is not observable here. A profile that is new for vortex_profiles_register_extended_start has its default handlers before any other thread finds it (the code puts it in the table at 664 and sets them at 667-668). Masks and the size of the buffer of a greeting are in GreetModel.
* `PullModel.v`: The PULL API (pull/vortex_pull.c): vortex_pull_init (335-389), vortex_pull_cleanup (397-438), the handlers that turn what happens into events (251-300, 1004-1195), vortex_pull_event_marshaller (192-246), vortex_pull_next_event (518-530), the references of an event (99-146, 542-612) and the event masks (158-188, 817-1000). One context. A handler is three critical sections: the filter and the queue, for a start the deferral and the queue again, and the push; handlers run interleaved with each other, with the user and with init and cleanup. A queue of another generation is one that was released. The iteration of the masks is one section. Whether the connection can be referenced comes with the step.
* `PyModel.v`: The Python bindings (py-vortex/src): the handlers called when a connection is closed and their handles (py_vortex_connection.c 755-911, py_vortex_handle.c 181-211), the references held by vortex.Connection (123-244, 297-355, 1185-1248; py_vortex.c 106-155), vortex.AsyncQueue and channel.get_reply (py_vortex_async_queue.c 76-196, py_vortex_channel.c 717-754), the handler of the frames of a channel (py_vortex_channel.c 74-120, 187-298, py_vortex_connection.c 524-640), the content sent (py_vortex_channel.c 443-693) and the events (py_vortex_ctx.c 518-711). Code that runs with the global lock of the interpreter held is one step; a function that waits for the lock is two. Python objects are numbers; a pointer is the number of the block it points to and blocks are never reused, so that an access to a block released is [UB]. Memory is never exhausted.
* `QueueModel.v`: vortex_queue (src/vortex_queue.c:74-267): a list under a mutex. Each operation is one critical section; free is two steps, the test of the length and the release of the memory (256-264). Items are pointers, 0 is NULL.
* `ReadyModel.v`: Model of the ready set of the sequencer for one channel. Source: src/vortex_sequencer.c. Threads: any number of senders (they enter one at a time, the critical section of state->mutex is split in two because the reader does not take that mutex to update the window), the reader and the sequencer thread.
* `ReassemblyModel.v`: Joining the fragments of a message and delivering it, and the whole way of a data frame through the reader once it has been read (src/vortex_reader.c:273-626, src/vortex_channel.c:1933-2183, src/vortex_frame_factory.c:2324-2398). A frame is delivered to one of three levels of handlers (vortex_reader.c:588-622); which one is not modelled, only the frame.
* `RefModel.v`: Reference counts of the objects of the library, changed by several threads: connections (src/vortex_connection.c:2928-2958 without the check of the connection, 3049-3089), channels (src/vortex_channel.c:5007-5087), queues between threads (src/vortex_thread.c:1380-1400, 1433-1472), hash tables (src/vortex_hash.c:146-167, 531-567), contexts (src/vortex_ctx.c:661-677, 725-762, 782-820), feeders (src/vortex_payload_feeder.c:438-511) and frames (src/vortex_frame_factory.c:2090-2124). A step is a critical section of the mutex of the object or one access to the counter without it. Counters have no upper limit here. What the release of the object does with its contents is not followed: any access to the counter or to the object once its memory was released is undefined behaviour.
* `RegistryModel.v`: The channels of a connection by number: the choice of the number of a new channel (src/vortex_connection.c:4089-4104, 4218-4248), the table of channels (4550-4594, 4622-4655) and how the creation of a channel uses them (src/vortex_channel.c:861-895, 928-932, 972-984, 1005-1042). A step is a critical section of the mutex of the channels, except for the search of a free number, where a step is one iteration of the loop: the mutex is held until a free number is found, but removing a channel does not need it. Channels are numbered in the order they are created.
* `ReplyModel.v`: Model of the answering side of a channel: the messages received and not answered yet, the replies issued by the application in any order, and their release to the sequencer in the order of the messages. Source: src/vortex_channel.c.
* `RpcModel.v`: XML-RPC over BEEP: how values, calls and responses are written, how they are read back, and how a call received is dispatched and answered (xml-rpc/vortex_xml_rpc_types.c and xml-rpc/vortex_xml_rpc.c, "types" and "rpc" below; vortex_support_strtod of src/vortex_support.c 784-822). A document is the tree of the management messages ([MsgModel.xml]): [axl_doc_parse] is AXL's and given as an argument. Strings are lists of octets without zero. A double is an integer ([DZ], exact up to 2^53, %g and strtod computed) or anything else ([DTxt], known by a text that denotes it; the text %g gives for it is the argument [g]). strtod is the one of the C locale, for decimal notations; "inf", "nan" and hexadecimal ones are not followed. A null pointer given to %s or followed is undefined behaviour, and so is the int read where the union holds a pointer. long has 64 bits. Memory (who owns a value) is not followed here.
* `SaslCliModel.v`: SASL, the initiator (sasl/vortex_sasl.c): vortex_sasl_start_auth (1297-1366) with its checks (1208-1258), __vortex_sasl_start_auth (1042-1185), the first step (681-743), the steps after it (__vortex_sasl_initiator_do_steps, 866-990), the notification (483-522), and vortex_sasl_start_auth_sync (1372-1483) with its queue. One connection. What the SASL library and the listener do comes with each call. The properties are there or not. The time limit of the synchronous call is an event.
* `SaslModel.v`: SASL, the listener (sasl/vortex_sasl.c): the start of a SASL channel (__vortex_sasl_accept_negotiation_start, 2152-2236), the messages of the SASL channels (__vortex_sasl_accept_negotiation_frame_receive, 2238-2265), the step (__vortex_sasl_server_iterate, 2048-2138), the calls the SASL library makes to have the credentials checked (__vortex_sasl_auth_validation, 1874-1985, and the functions of each mechanism, 1545-1860), the properties (vortex_sasl_set_propertie, 274-345) and vortex_sasl_is_authenticated (437-446). One connection. The SASL library (GNU SASL) is not in the repository: at each step it does what it wants with the properties of its session and with the calls to the validation function, and ends with the code it wants; what each event carries is what it did. What is known of it (that it does not end with GSASL_OK without a validation) is a hypothesis of the theorems (SaslSpec). Its properties are strings in memory of its own: setting one, and ending the session, release the one before. Strings are numbers. Each message and each start is handled at once (the code takes no lock, so two SASL channels handled by two threads at once are a data race, which is left out). The user handlers are functions of what they are given. The serverName of the start and the user pointers are left out.
* `SearchModel.v`: The search path of data files: vortex_support_check_search_path (src/vortex_support.c:293-325), add_search_path (264-272), add_search_path_ref (347-363), add_domain_search_path (382-398), add_domain_search_path_ref (409-460) and vortex_support_domain_find_data_file (522-586). Strings are lists of octets. A step is a critical section of search_path_mutex, so calls of several threads may interleave. Whether a file exists and is a regular file is told by an oracle. Where axl_list_add puts an item of a list created with axl_list_always_return_1 is a parameter: the library documents that it is the end.
* `SendRawModel.v`: Model of vortex_frame_send_raw, the function that writes the bytes of a frame to the socket. Source: src/vortex_frame_factory.c:1937-2064.
* `SequencerModel.v`: Model of the sequencer: how queued messages become frames. Source: src/vortex_sequencer.c.
* `SerializeModel.v`: Delivery of frames to the frame received handler of a channel by the threads of the pool, with vortex_channel_set_serialize (src/vortex_channel.c:4773-4799, check_serialize_pending 6267-6312, check_serialize 6325-6366, __vortex_channel_invoke_received_handler 6382-6532, vortex_channel_invoke_received_handler 6563-6659; the handlers of profiles, src/vortex_profiles.c:952-969, are called the same way). A step is a critical section of [serialize_mutex] together with the start or the end of the handler next to it. The tasks given to the pool may run in any order. The frame read from the network comes with its content size (that of the joined frame, if it came in fragments). References to the channel and the connection are not followed.
* `SslModel.v`: Reading and writing over TLS: what the handlers of the connection return for what OpenSSL did (tls/vortex_tls.c 63-95, 131-157, 445-609). OpenSSL is not modelled: what each SSL_read or SSL_write did is an argument. What SSL_get_error looks at is: the error queue of the thread, errno, and in the SSL object what the last call was waiting for and whether close_notify came (as in OpenSSL 1.1.1 and 3; in 3 the end of the stream without close_notify is a failure of the protocol, [DBad]). The mutex of the connection is held during SSL_read and SSL_write but not during SSL_get_error: what other threads did to the object in between is also an argument. The SSL object and the mutex are there (without them both functions return 0); SSL_pending is in the area Pend; the log is left out. OpenSSL sets errno to 0 when SSL_read or SSL_write begins.
* `StartModel.v`: The start requests received on channel 0 (src/vortex_channel.c:6844-6905, 7231-7331), the decision about each of them (7103-7220) and the decisions deferred by the application (6911-7096). Each frame of channel 0 is processed by a thread of its own: nothing serialises them. A step is what a thread does between two calls to the application or two accesses to the table of channels. The requests are numbered in the order they are received; channels as they are created. The application has no references of its own to the channels, so that one that is not in the table is in freed memory. A reply is sent if and only if the connection is open. Texts are not followed, nor is the server name (see ConnModel).
* `TimeModel.v`: Arithmetic with times: the deadline of a timed wait (src/vortex_thread.c:888-947), the next activation of a thread pool event (src/vortex_thread_pool.c:102-114) and the difference of two times (src/vortex_support.c:897-921). [long], [time_t] and [suseconds_t] are 64 bits wide; a signed overflow is [UB].
* `TlsModel.v`: TLS (tls/vortex_tls.c): the listener (vortex_tls_process_start_msg, 1992-2085, vortex_tls_prepare_listener, 1705-1975, vortex_tls_initial_accept, 1602-1690), the initiator (vortex_tls_start_negotiation, 1507-1570, __vortex_tls_start_negotiation, 1015-1328, vortex_tls_invoke_tls_activation, 709-912), the synchronous call (2157-2190, 2271-2352), auto TLS (2777-2838), vortex_tls_verify_cert (941-1000) and the text of the digests (2203-2226). One connection. The SSL library (OpenSSL) and the handlers of the user are what each event or call carries. The listener is the object the reader watches: after the preparation, the new connection. The notification of the failure handler is left out.
* `TmoModel.v`: The timeouts an application configures: vortex_connection_timeout (src/vortex_connection.c 3137-3163), vortex_connection_connect_timeout (3189-3215), vortex_connection_get_timeout (3226-3260), vortex_connection_get_connect_timeout (3272-3288) and the environment they use (src/vortex_support.c 600-629, 683-724). The environment belongs to the process: all the contexts share it. A context is its number; a number no context has is undefined behaviour. setenv never fails and is taken as one step, as getenv is: POSIX does not allow them to race.
* `TunnelModel.v`: Model of the TUNNEL profile (RFC 3620): the settings with the hops to cross, the connection to the first hop, the answer of a listener to a tunnel request and the relay of octets done by the hops in the middle. Source: tunnel/vortex_tunnel.c. XML documents are trees of <tunnel> nodes (writing one and parsing it at the other side gives the same tree: the AXL library, trusted).
* `ValModel.v`: The memory of the XML-RPC values (xml-rpc/vortex_xml_rpc_types.c): values, structs, members, arrays, calls and responses, who owns them and when they are released, and the functions that take a value out of a response and release it (vortex_xml_rpc_unmarshall_*_sync, xml-rpc/vortex_xml_rpc.c 2382-2944). The memory is a list of cells, an address being a place of the list; a cell released is never used again. A release is done with the list of the references still to be dropped instead of the recursion of the code, which releases the contents before the container: the same but for values that contain themselves. Memory is never exhausted.
* `WaitModel.v`: The threads that wait for a reply, or for a reply to be sent (src/vortex_channel.c:8566-8585, 8594-8599, 8635-8719, 8956-9040, 8042-8108), and how replies are given to those who wait (2606-2618, 6573-6612, 7495-7519). A step is a critical section of one of the mutexes involved or an access between two of them. The list of close handlers of the connection is that of OnCloseModel, seen only through the handler this thread installs; pushing a value in a queue and waking up who waits is a single step (see AsyncModel).
* `WsModel.v`: Connections over WebSocket (web-socket/vortex_websocket.c): the setup and who holds it (118-360), the creation of a connection (__vortex_websocket_connection_new, 495-649, and vortex_websocket_connection_new, 686-726), the connections accepted (732-866), the listener (vortex_websocket_listener_new, 908-954) and the detection of WebSocket peers on the port of a listener (1031-1105). The reading is in PendModel. noPoll and the network are arguments: whether a WebSocket connection is made, its Host header and whether it uses TLS. The greetings succeed or not. Memory is never exhausted: axl_new gives memory filled with zeros.

## What is not modelled

* The rest of XML-RPC (boot of its channels, ownership of
  values), the WebSocket, external and SASL/TLS cryptography libraries; name
  resolution; logging.  Of XML, only the subset read in `MsgSpec.v`.
* Allocation failures (the code does not check most of them).
* The AXL library, libc and pthreads are not part of /repo: lists, hash tables,
  string helpers, mutexes and condition variables have their documented
  semantics.
* Each model file says in its comments where it simplifies.

## Properties

* **C01** Frame encode/decode round trip - proved, `CodecProps.v`: `C01_frame_round_trip`. All data frames, any buffer with 68 bytes of room beyond the payload, any cut of the bytes.
* **C02** SEQ frame encode/decode round trip - partial, `CodecProps.v`: `C02_seq_round_trip_partial`, `C02_seq_round_trip_refuted`. Proved for acknowledgements below 4294967294; the two topmost values are refuted with witnesses.
* **C03** A frame stream is decoded frame by frame - proved, `CodecProps.v`: `C03_stream`. Any sequence of wire frames, any cut of the bytes.
* **C04** Decoding does not depend on how the network splits the bytes - partial, `CodecProps.v`: `C04_any_fragmentation`, `C04_readiness_partial`, `C04_timing_refuted`, `C04_dry_read_refuted`. Delivered frames are always a prefix; complete delivery if the socket runs dry fewer than 25 times; full independence of timing is refuted.
* **C05** Only well-formed frames are delivered - partial, `CodecProps.v`: `C05_delivered_partial`, `C05_strict_refuted`, `C05_safe_partial`, `C05_safe_refuted`. What is delivered is characterised for every input with the lenient grammar the code accepts; the strict grammar and memory safety for every input are refuted with witnesses.
* **C06** Frames never overflow the sequencer's sending buffer - partial, `SequencerProps.v`: `C06_buffers_partial`, `C06_handler_refuted`, `C06_mime_feeder_refuted`. No undefined behaviour for every schedule when the frame size handlers ask for at most 1073741774 octets and feeders give no more than asked; refuted for a larger answer and for the file feeder with MIME header asked for one octet.
* **C07** A frame is written completely, in order, or the connection fails - partial, `SendRawProps.v`: `C07_send_raw`, `C07_connection_partial`, `C07_connection_refuted`. The single call is characterised for every behaviour of the socket; the in-order guarantee over a connection holds when partial writes and timeouts stay below the number of tries and is refuted otherwise.
* **C08** Message segmentation is lossless - partial, `SequencerProps.v`: `C08_segmentation`, `C08_empty_refuted`. Proved for every schedule without paused feeders; an empty continuation message closes the connection (refuted).
* **C09** A sender never exceeds the window advertised by its peer - partial, `SequencerProps.v`: `C09_within_window_partial`, `C09_handler_refuted`, `C09_mime_feeder_refuted`. Proved for the default frame size computation, any peer and any well behaved feeder; refuted for user frame size handlers and for the file feeder with MIME header.
* **C10** SEQ frames never move the sending window backwards - proved, `FlowProps.v`: `C10_window_only_grows`, `C10_acceptance`. Any pair of 32-bit values in the SEQ frame, any point of the sequence space. A refused SEQ closes the connection.
* **C11** The receive window check is exact - proved, `FlowProps.v`: `C11_check_exact`. Every reachable state of the receiving side, including after the wrap.
* **C12** Advertised receive windows only grow - partial, `FlowProps.v`: `C12_advertised_windows_grow`, `C12_bad_frame_acked_refuted`. Proved for every sequence of accepted frames anywhere in the sequence space; the exactness of the acknowledgement is refuted for a frame refused by the checks made after the SEQ frame is sent.
* **C13** Flow control neither loses frames nor deadlocks - partial, `FlowProps.v`: `C13_no_loss_partial`, `C13_no_deadlock_partial`, `C13_wrap_refuted`. Proved for every schedule in which no SEQ frame acknowledging octet 2^32-1 or 2^32-2 is read; refuted without that restriction (the connection is closed at the wrap).
* **C14** Changing the channel window size is safe at any time - partial, `FlowProps.v`: `C14_resize_far_from_wrap_partial`, `C14_resize_grow_partial`, `C14_shrink_refuted`, `C14_starved_refuted`, `C14_same_limit_refuted`. Safe away from the wrap, and anywhere when requests never shrink; refuted near the wrap, and the sender refuses an update that leaves the limit unchanged.
* **C15** Outgoing message numbers are unique among unanswered messages - partial, `OutProps.v`: `C15_fresh_partial`, `C15_pieces`, `C15_overflow_refuted`. Fresh numbers in every execution in which pieces are only resumed while the message is known and the counter does not pass INT_MAX; the counter overflows an int after 2^31 messages (refuted).
* **C16** A peer cannot reuse a message number that is still unanswered - proved, `ReplyProps.v`: `C16_accepted`, `C16_decision`, `C16_after_close`. Every behaviour of the application and of the peer.
* **C17** Replies leave in the order the messages arrived - partial, `ReplyProps.v`: `C17_order_partial`, `C17_terminates`, `C17_pieces_refuted`. Proved for every order of calls in which each message gets one answer, sent in pieces only for the oldest message; refuted for pieces of other messages (the first piece is lost).
* **C18** A reply is accepted only for the oldest unanswered message - proved, `OutProps.v`: `C18_oldest`, `C18_decision`, `C18_numbers`. 
* **C19** ANS replies are numbered consecutively and terminated by NUL - partial, `ReplyProps.v`: `C19_numbering`, `C19_after_nul_refuted`. Proved for applications that stop after NUL; an ANS issued after the NUL of a waiting message is accepted and sent later (refuted).
* **C20** The outstanding limit is respected - proved, `OutProps.v`: `C20_limit`. 
* **C21** Fragments are reassembled into the original message - partial, `ReassemblyProps.v`: `C21_delivery_partial`, `C21_each`, `C21_not_mime_refuted`. Proved for any number of messages, any cut in frames and sequence numbers that wrap, for MIME contents or single frames; joined contents that are not MIME make the reader access memory out of bounds (refuted).
* **C22** Fragments of different messages are never merged - partial, `ReassemblyProps.v`: `C22_kept`, `C22_out_of_place`, `C22_mixed_refuted`, `C22_interleaved_refuted`, `C22_nul_refuted`. Fragments kept always belong to one message; the last frame is joined without any check (refuted).
* **C23** Reassembly memory is bounded by the configured limit - partial, `ReassemblyProps.v`: `C23_bound`, `C23_exact`, `C23_limit`, `C23_final_refuted`. The bound on stored bytes holds in every execution; a message that goes over the limit with its last frame is still delivered (refuted).
* **C24** MIME processing never loses body bytes - partial, `MimeProps.v`: `C24_body`, `C24_unique`, `C24_joined_partial`, `C24_joined_refuted`. Proved for every content received in one frame; for joined messages only when the content is MIME, false otherwise.
* **C25** MIME header lookup - partial, `MimeProps.v`: `C25_lookup`, `C25_content_type`, `C25_no_content_type`, `C25_usual_refuted`. Exact result of every lookup; repeated usual headers only keep the last value (refuted).
* **C26** vortex_queue is a FIFO with head insertion - proved, `QueueProps.v`: `C26_line`, `C26_usable`, `C26_once`, `C26_order`, `C26_free`. 
* **C27** The async queue is FIFO and loses no wake-ups - proved, `AsyncProps.v`: `C27_line`, `C27_once`, `C27_order`, `C27_awake`, `C27_takes`, `C27_waiters`. Items of batches of unlocked pushes are covered by the order; the absence of lost wake-ups is for queues used without batches of several items (see C28).
* **C28** Unlocked pushes wake every waiter that could proceed - partial, `AsyncProps.v`: `C28_batch_refuted`, `C28_partial`. False: one thread is woken however many items are pushed between lock and unlock. True with one item.
* **C29** vortex_hash is a map that destroys each value exactly once - proved, `HashProps.v`: `C29_map`, `C29_once`, `C29_released`, `C29_references`. 
* **C30** vortex_hash_lock_until_changed observes changes - partial, `HashProps.v`: `C30_notified_partial`, `C30_stolen_refuted`, `C30_gap_refuted`, `C30_stale_refuted`. A notification releases all waiters if no thread comes to wait meanwhile; otherwise the wake-up can be stolen, missed, or reported without change (refuted).
* **C31** Timed waits use the right deadline - partial, `TimeProps.v`: `C31_deadline_partial`, `C31_early`, `C31_deadline_refuted`. Exact except when the microseconds add up to one second: then a second early.
* **C32** Thread pool event stamps are exact - partial, `TimeProps.v`: `C32_stamp_partial`, `C32_stamp_refuted`. Exact except when the microseconds add up to one second: then a second early.
* **C33** The thread pool size stays within its limits - partial, `PoolProps.v`: `C33_add`, `C33_max_partial`, `C33_max_refuted`, `C33_min_partial`, `C33_min_refuted`, `C33_auto_refuted`, `C33_base_refuted`. The maximum can be passed by less than a step. Threads removed twice before the first ones are gone can leave none, by hand or automatically, and below the base size (refuted).
* **C34** Each task is executed exactly once - partial, `PoolProps.v`: `C34_once`, `C34_done_partial`, `C34_defined`. Never twice, in order, and always executed while the pool has threads (C33_min_refuted shows how it can have none).
* **C35** A channel pool hands a channel to one user at a time - partial, `ChanPoolProps.v`: `C35_exclusive_partial`, `C35_exclusive_refuted`, `C35_closed_refuted`, `C35_available`, `C35_released`, `C35_released_refuted`. Holds when calls of get_next_ready do not overlap: the mutex is released between finding a channel and marking it, so two threads can get the same one, or one already closed (refuted).
* **C36** Fresh channel numbers - partial, `RegistryProps.v`: `C36_side`, `C36_unused`, `C36_apart`, `C36_once`, `C36_defined_partial`, `C36_defined_refuted`, `C36_found`. All true of the initiator. A listener that has given all its numbers overflows an int (refuted).
* **C37** Connection ids are unique and increasing - partial, `ConnProps.v`: `C37_unique`, `C37_increase`, `C37_defined_partial`, `C37_defined_refuted`. Unique and increasing. The counter is a signed int that overflows with connection 2^31 - 1 (refuted).
* **C38** Channel errors are reported once, most recent first - proved, `ConnProps.v`: `C38_lifo`. 
* **C39** On-close handlers run exactly once - proved, `OnCloseProps.v`: `C39_once`, `C39_all`, `C39_removed`, `C39_not_found`, `C39_order`. For handlers whose thread can be created (C39_all) and until the library ends; handlers are started in the order of the list, each in its own thread.
* **C40** Serialised delivery is in order - partial, `SerializeProps.v`: `C40_order_partial`, `C40_all_partial`, `C40_empty_refuted`, `C40_lost_refuted`, `C40_taken_refuted`, `C40_late_refuted`, `C40_mime_refuted`, `C40_backlog_refuted`, `C40_piggyback_refuted`. Any number of frames and any interleaving of the threads of the pool: the handler is called in order, one call at a time, each frame once, and with all of them once the pool is idle. Conditions of the partial theorems: frames with content, none given to somebody else, their size not changed by the handler, at most 2^32 octets waiting, serialisation enabled before the first frame. Each condition is needed, refuted without: an empty frame (NUL is always empty) is passed by the next one or lost; a reply taken by vortex_channel_wait_reply stops delivery for good; so do frames queued before the call to set_serialize and a handler that adds a MIME header; 2^32 octets of backlog make two calls overlap; if the start reply had content the frames after it are never delivered.
* **C41** Waiting for a reply to be sent always terminates - partial, `WaitProps.v`: `C41_sent_partial`, `C41_closed_refuted`. True when the reply is sent. If the connection is closed first the call never returns (refuted).
* **C42** Waiting for a reply delivers the matching reply - partial, `WaitProps.v`: `C42_result`, `C42_frame`, `C42_kept`, `C42_safe_partial`, `C42_matching_partial`, `C42_matching_ans_refuted`, `C42_matching_reuse_refuted`, `C42_prompt_refuted`, `C42_lost_refuted`, `C42_crossed_refuted`, `C42_late_refuted`. The value returned is a frame given to the object. Replies match when no object is used twice and those waited for are RPY or ERR; otherwise everyone else starves (refuted). Races with the close of the connection block the thread or use freed memory (refuted).
* **C43** Reference counts free objects exactly once - proved, `OnCloseProps.v, RefProps.v`: `C43_counted`, `C43_connection`. C43_counted covers channels and connections (kinds KChan, KConn) with the steps of each call; C43_connection also the references taken by the library itself when a connection is closed.
* **C44** A file feeder transmits the file - partial, `SequencerProps.v`: `C44_content`, `C44_progress`, `C44_size_partial`, `C44_finish_once`, `C44_sent`, `C44_large_refuted`. Content and order proved for every sequence of requested sizes and through the sequencer (without MIME header); the requested size can be exceeded with a MIME header, and sizes are kept in an int.
* **C45** Search path lookup - proved, `SearchProps.v`: `C45_from`, `C45_first`. That new items of a list created with axl_list_always_return_1 go to the end is documented by the axl library, which is not part of the repository; C45_from holds for any place.
* **C46** Time interval subtraction - partial, `TimeProps.v`: `C46_exact`, `C46_reused`, `C46_reused_refuted`. Exact for normalised times; with a time left by an earlier call the result may have a million microseconds and the wrong sign.
* **C47** The server name is bound once - partial, `ConnProps.v`: `C47_once_partial`, `C47_once_refuted`, `C47_port_refuted`, `C47_defined_refuted`. True when calls do not overlap. There is no mutex: threads that start channels at once can change it, see it with the port, or read past its end (refuted).
* **C48** Each start request gets exactly one answer - partial, `StartProps.v`: `C48_answered_partial`, `C48_channel_partial`, `C48_reasons_partial`, `C48_apart_partial`, `C48_busy`, `C48_number_refuted`, `C48_refuse_refuted`, `C48_close_refuted`. Proved when every request has the attribute number, deferred decisions are told once and refusals only after the handler returned, and no channel is closed before the decision about it. Otherwise the code reads through a null pointer or uses freed memory (refuted). The masks may ask for no answer at all.
* **C49** Each close request gets exactly one answer - partial, `CloseProps.v`: `C49_answered_partial`, `C49_accepted_partial`, `C49_removed`, `C49_undefined_refuted`, `C49_referenced`. Proved when the requests have a number, deferred requests are answered once and accepted only if nobody is closing the channel, and no channel is removed while a request that found it is being served or a call to vortex_channel_close has just begun. Otherwise the code reads through a null pointer or uses freed memory (refuted), also with well-behaved peers: a close request found while our own close ends.
* **C50** Piggybacked content is delivered once - proved, `PiggyProps.v`: `C50_once`, `C50_get`, `C50_kept`. 
* **C51** Profile masks are conjunctive - partial, `ConnProps.v`: `C51_filtered`, `C51_message_partial`, `C51_message_refuted`, `C51_ends_partial`, `C51_ends_refuted`. The result is as stated. A message left by a mask that does not filter is reported for one that does without a message (refuted), and masks that install masks never end (refuted).
* **C52** Connection actions run in order until one stops them - proved, `ConnProps.v`: `C52_in_order`, `C52_closed`. The order of the list is the one axl_list_add gives; additions during the calls are assumed to be at its end.
* **C53** Integer formatting - proved, `CodecProps.v`: `C53_itoa_exact`. Exact behaviour for every value and every buffer size.
* **C54** Acknowledgements of octets never sent are refused - partial, `FlowProps.v`: `C10_ack_unsent_refuted`. The claim is false: the code compares the acknowledgement with the window only, not with what was sent.
* **C55** A queued message is never forgotten by the sequencer - partial, `ReadyProps.v`: `C55_not_forgotten_partial`, `C55_lost_wakeup_refuted`, `C55_pause_refuted`. Proved for every schedule without pauses in which no SEQ frame is processed inside add_channel; refuted by that race and by pausing a feeder with other messages pending.
* **C56** The reply reported as sent is the one that was sent - partial, `SequencerProps.v`: `C56_nul_refuted`. Exact list of reported numbers is part of C08_segmentation; the claim itself is false for an empty NUL, reported as 0.
* **C57** The sequencer does not spin with nothing to send - partial, `ReadyProps.v`: `C57_no_spin_partial`, `C57_spin_refuted`. Refuted by a race between the reader and the sequencer; proved for schedules without SEQ frames.
* **C58** A message sent in pieces can always be completed - partial, `OutProps.v`: `C58_more_limit_refuted`. The claim is false: the first piece counts as outstanding, the next one blocks forever.
* **C59** A sender blocked at the outstanding limit is released when the connection is lost - partial, `OutProps.v`: `C59_release_refuted`. The claim is false: nobody signals the condition when the connection is lost.
* **C60** A reply to a message already answered is refused - partial, `ReplyProps.v`: `C60_stale_refuted`. The claim is false: the second reply is stored and sent to a later message.
* **C61** Message contents cannot make the reader leave the memory of a frame - partial, `MimeProps.v, ReassemblyProps.v`: `C24_body`, `C24_joined_refuted`, `C21_not_mime_refuted`, `C22_nul_refuted`. Holds for messages in one frame, false for messages in several frames.
* **C62** Destroy functions run with the table unlocked - partial, `HashProps.v`: `C62_unlocked_partial`, `C62_clear_refuted`. True of insert, replace and remove; clear calls them with the table locked.
* **C63** Stopping the thread pool ends its threads - proved, `PoolProps.v`: `C63_stopped`. 
* **C64** Automatic resizes keep their period - proved, `PoolProps.v`: `C64_period`. 
* **C65** Pool events are called when their time comes, one at a time - partial, `EventProps.v`: `C65_apart`, `C65_on_time_partial`, `C65_on_time_refuted`, `C65_pass_partial`, `C65_pass_refuted`. Handlers never overlap. Early only when microseconds and delay make exactly one second (refuted). A pass calls exactly the events due unless events are installed or removed during it (refuted).
* **C66** Removed pool events are not called again - partial, `EventProps.v`: `C66_last`, `C66_removed_partial`, `C66_removed_refuted`, `C66_id_partial`, `C66_id_refuted`. No call after axl_true; at most one call, already decided, after remove_event (refuted). Identifiers are truncated addresses and can be equal (refuted).
* **C67** Pool events are released exactly once - proved, `EventProps.v`: `C67_defined`, `C67_freed`. 
* **C68** Channel pools have different identifiers - partial, `ChanPoolProps.v`: `C68_ids_partial`, `C68_ids_refuted`. The counter is not protected by a mutex (refuted when two threads create pools at once).
* **C69** A channel is found by its number until it is closed - partial, `RegistryProps.v`: `C69_found_partial`, `C69_found_refuted`, `C69_one`. Never two channels with a number. A refused channel is removed twice by number, so a channel created meanwhile with that number is lost (refuted).
* **C70** Changing the handler that chooses the size of frames - partial, `ConnProps.v`: `C70_previous_partial`, `C70_previous_refuted`, `C70_data_partial`, `C70_data_refuted`. The setter of the context returns the new handler (refuted). Data and handler are changed in two steps without a mutex (refuted when a frame is sent in between).
* **C72** A close handler installed on a closed connection is called - partial, `OnCloseProps.v`: `C72_late_refuted`. False: it is stored and never called (refuted).
* **C71** A channel is created only if the peer confirms the requested profile - partial, `ConfirmProps.v`: `C71_first_partial`, `C71_origin`, `C71_twice_refuted`, `C71_error_refuted`, `C71_other_refuted`, `C71_content_refuted`, `C71_defined_partial`, `C71_defined_refuted`. Holds for a text not seen before by the context (C71_first_partial). The cache of replies is indexed by the text only and keeps replies that were refused: the same text is accepted the second time, for another profile or in a frame ERR, and its content is lost (refuted); three validations at once use freed memory (refuted).
* **C73** A channel whose close is refused keeps working - partial, `CloseProps.v`: `C73_kept_refuted`, `C73_stuck`. False: the flag being_closed is never reset, so no message is accepted, no later close returns and the channel stays in the table (proved for every later execution).
* **C74** vortex_channel_close returns TRUE only if the close was agreed - partial, `CloseProps.v`: `C74_returned_partial`, `C74_answer`, `C74_timeout_refuted`, `C74_type_refuted`, `C74_inside_refuted`. TRUE is also returned without an answer in time, after a frame of another type, and inside a close handler that then refuses (refuted). What the values say is proved for every execution.
* **C75** Closes that cross close the channel on both sides - partial, `CloseProps.v`: `C75_crossed_partial`, `C75_window_refuted`. Proved when the wait object is already set. A request served between the flag and the wait object is answered with ok and not seen by the call, which then is refused by the peer and leaves the channel in the table (refuted).
* **C76** A channel is removed only for a reason - proved, `CloseProps.v`: `C49_removed`. 
* **C77** Queues, hashes, contexts and feeders are released exactly once - proved, `RefProps.v`: `C43_counted`. The kinds KQueue, KHash, KCtx and KFeeder of the theorem.
* **C78** Frames are released exactly once - partial, `RefProps.v`: `C78_frame_partial`, `C78_race_refuted`. Proved if no two calls overlap in time; refuted otherwise, since the counter of a frame has no mutex (the documentation of vortex_frame_ref says it is not thread safe).
* **C79** vortex_ctx_unref clears the pointer of the caller that released the context - partial, `RefProps.v`: `C79_null_partial`, `C79_race_refuted`. Set to NULL only if released; but if two calls overlap the one that releases the context may leave the pointer dangling.
* **C80** The answer of a call for a reference can be relied upon - partial, `RefProps.v`: `C80_kept_refuted`, `C80_refused_refuted`. Refuted for callers without a reference: there is a window between the decrement to 0 and the release. For callers that own one see C43 and C77.
* **C81** A thread that waits for a reply gets the reply to its message - partial, `PiggyProps.v`: `C81_reply_refuted`. Refuted: the content of a start reply is delivered as an RPY with number 0 and is given to the thread that waits for the reply to message 0.
* **C82** A path can be added to any domain - partial, `SearchProps.v`: `C82_skip_partial`, `C82_default_refuted`. Refuted for a path that was already added to the domain "default" (vortex_support.c:424 checks that domain instead of the one requested); otherwise the path is kept.
* **C83** What is delivered is a beginning of what was sent - proved, `CodecProps.v`: `C04_any_fragmentation`. The frames must be such that the reader accepts them (receivable); a read that ends the connection is one of the two shutdowns of C04.
* **C84** A frame reported as written was written - proved, `SendRawProps.v`: `C07_send_raw`. Every result of send and of the wait for the socket.
* **C85** Recognising the MIME headers of a frame - proved, `MimeProps.v`: `C24_body`, `C24_unique`. Contents received in one frame; joined messages are C24 and C61.
* **C86** Headers of MIME messages - proved, `MimeProps.v`: `C25_lookup`, `C25_content_type`, `C25_no_content_type`. As MIME entity in MimeSpec.v; repeated usual headers are C25.
* **C87** Tasks of the pool start in order and at most once - proved, `PoolProps.v`: `C34_once`, `C34_defined`. That tasks are executed at all is C34.
* **C88** Numbers chosen for channels are of the right side and not in use - proved, `RegistryProps.v`: `C36_side`, `C36_unused`, `C36_once`, `C36_apart`. A listener that runs out of numbers is C36.
* **C89** A free channel number is found - proved, `RegistryProps.v`: `C36_found`. The call makes at most 2^30 tries.
* **C90** A thread that waits for a reply gets a frame given to it, and keeps it - proved, `WaitProps.v`: `C42_result`, `C42_frame`, `C42_kept`. Which frame is given to which object, and the races with the close, are C42.
* **C91** Differences of normalised times are exact - proved, `TimeProps.v`: `C46_exact`. Times left by earlier calls are C46.
* **C92** A number in use is never started again - proved, `StartProps.v`: `C48_busy`. In every state with the request being checked and the connection open.
* **C93** A profile is filtered when some mask filters it - proved, `ConnProps.v`: `C51_filtered`. If the call ends; that it may not end is C51.
* **C94** Handlers of pool events do not overlap and end when they say so - proved, `EventProps.v`: `C65_apart`, `C66_last`. 
* **C95** Numbers of channels are unique - proved, `RegistryProps.v`: `C69_one`. 
* **C96** A file feeder gives the file - proved, `SequencerProps.v`: `C44_content`, `C44_progress`, `C44_finish_once`. Files of 2^31 octets or more are C44.
* **C97** Memory kept for incomplete messages is bounded - proved, `ReassemblyProps.v`: `C23_bound`, `C23_exact`, `C23_limit`. What is delivered with the last frame is C23.
* **C98** Frames kept for reassembly belong together - proved, `ReassemblyProps.v`: `C22_kept`, `C22_out_of_place`. The last frame is C22.
* **C99** A call to reply ends - proved, `ReplyProps.v`: `C17_terminates`. 
* **C100** Windows advertised only grow - proved, `FlowProps.v`: `C12_advertised_windows_grow`. Resized windows are C14.
* **C101** With the complete flag off each frame is delivered as it came - proved, `ReassemblyProps.v`: `C21_each`. 
* **C102** One-to-many replies are numbered from 0 - proved, `ReplyProps.v`: `C19_numbering`. Applications that reply after NUL are C19.
* **C103** Threads added to the pool - proved, `PoolProps.v`: `C33_add`. 
* **C104** Identifiers of connections are unique and increase - proved, `ConnProps.v`: `C37_unique`, `C37_increase`. The overflow is C37.
* **C105** A ready channel of a pool is handed out - proved, `ChanPoolProps.v`: `C35_available`, `C35_released`. Concurrent calls are C35.
* **C106** The pieces of a message share its number - proved, `OutProps.v`: `C15_pieces`. The numbers of different messages are C15.
* **C107** Messages carry the MIME headers of their profile - partial, `HeadProps.v`: `C107_headers_partial`, `C107_always_wrong`, `C107_overflow`, `C107_encoding_refuted`, `C107_memory_refuted`. Holds with the default transfer encoding. False with any other: the MIME type is written as its value (src/vortex_channel.c:593), and it is written out of bounds exactly when it is longer than the encoding and the message by more than 3 octets.
* **C108** The MIME type of a profile can be changed while it is used - partial, `HeadProps.v`: `C108_change_refuted`, `C108_unregister_refuted`, `C108_steady_partial`. False: the channels keep pointers to strings that the profile frees. Holds if the profile is not changed while it has channels.
* **C109** The level that decides whether MIME headers are added - proved, `HeadProps.v`: `C109_level`, `C109_kept`, `C109_fresh`. 
* **C110** The pieces of a message have the MIME headers once - proved, `HeadProps.v`: `C110_pieces`. 
* **C111** A one-to-many reply can always be ended - partial, `HeadProps.v`: `C111_end_partial`, `C111_one_frame`, `C111_window_refuted`, `C111_encoding_refuted`. False: the NUL frame carries MIME headers, is cut if the window of the peer has less room, and the peer closes the connection. It is accepted exactly when it fits in one frame.
* **C112** The peer gets the message and its MIME type - proved, `HeadProps.v`: `C112_received`. 
* **C113** The greetings announce what is configured - partial, `GreetProps.v`: `C113_says_partial`, `C113_quote_refuted`. the values are read back as they were written, what XML makes of "&" or "<" in them is not modelled; false for names with a quote
* **C114** Building the greetings stays inside of its buffer - partial, `GreetProps.v`: `C114_memory`, `C114_buffer_refuted`, `C114_filtered_refuted`. exactly characterised by C114_memory; false in the two cases of the refutations
* **C115** Greetings arrive whole however they are cut - partial, `GreetProps.v`: `C115_received_partial`, `C115_entity`, `C115_over`, `C115_big_refuted`. proved up to 4096 octets of content; false for longer ones
* **C116** Only a whole greetings reply is accepted - partial, `GreetProps.v`: `C116_whole_partial`, `C116_listener_refuted`. proved for the initiator; for the listener the frames before may be ignored (refuted)
* **C117** vortex_connection_new comes back - partial, `GreetProps.v`: `C117_greetings`, `C117_end_partial`, `C117_time_partial`, `C117_spin_refuted`. the end of the connection is only proved to end the loop with no fragment kept; with one it never ends (refuted)
* **C118** What is known of a peer comes from its greetings - partial, `GreetProps.v`: `C118_origin`, `C118_exact_partial`, `C118_zero_refuted`. proved for payloads without zeros and a parser that takes none; false otherwise
* **C119** The ALIVE check gives no false alarm - proved, `AliveProps.v`: `C119_alarm`. 
* **C120** A connection is given up only after it was asked - partial, `AliveProps.v`: `C120_asked_partial`, `C120_zero_refuted`. proved for max_unreply_count at least 1; false for 0
* **C121** A peer that stops answering is found - partial, `AliveProps.v`: `C121_detected_partial`, `C121_create_partial`, `C121_refused_refuted`, `C121_closed_refuted`. proved while the channel is open or not answered for; false if the peer refuses or closes the channel
* **C122** A connection is given up once and its reference given back - proved, `AliveProps.v`: `C122_once`. 
* **C123** The ALIVE check can be enabled again when it is not running - partial, `AliveProps.v`: `C123_again_partial`, `C123_again_refuted`. false: once enabled it is never enabled again on that connection
* **C124** The initiator accepts only the whole first reply as greetings - proved, `GreetProps.v`: `C124_first`, `C124_closed`. 
* **C125** Greetings are received exactly up to 4096 octets - proved, `GreetProps.v`: `C125_limit`. 
* **C126** vortex_connection_new gives the connection when the greetings come - proved, `GreetProps.v`: `C126_greetings`. 
* **C127** A SASL peer is authenticated only if the application vouched for it - proved, `SaslProps.v`: `C127_vouched`. The SASL library (GNU SASL) is an argument: the theorem is for every library that ends with GSASL_OK only after the validation of the mechanism, or when the response was made with the password of the session (library, faithful in SaslSpec). Of the identity itself see C128.
* **C128** The SASL identity is the one the application vouched for - partial, `SaslProps.v`: `C128_identity_partial`, `C128_again_refuted`, `C128_retry_refuted`, `C128_authz_refuted`. Holds when the library fills in the properties and asks the application once in the session, and nothing else is sent on the SASL channels. False in general: the strings are kept without a copy and belong to the session of the library, which releases them when the peer sends another attempt (also after being authenticated), when a new session begins, and when a retry of CRAM-MD5 with another name uses the password of the first; the authorization id of an attempt that failed is left.
* **C129** No SASL message makes the listener fail - partial, `SaslProps.v`: `C129_calm_partial`, `C129_abort_refuted`, `C129_start_refuted`. Holds without abort and when the library can start its sessions. False: a message with status abort on an open SASL channel makes the listener use the length of a NULL reply; a start that the library refuses leaves the other SASL channels without a session.
* **C130** One SASL negotiation completes on a connection - proved, `SaslProps.v`: `C130_once`. 
* **C131** A SASL peer that is told complete is authenticated - partial, `SaslProps.v`: `C131_complete_partial`, `C131_crossed_refuted`. Holds if a channel with the mechanism of the session is open. False: the session belongs to the connection, so a channel goes on with the session of another one that was refused, and the check of the method used finds no channel.
* **C132** A SASL authentication lasts - partial, `SaslProps.v`: `C132_stays_partial`, `C132_channel`, `C132_closed_refuted`, `C132_malformed_refuted`. False when the SASL channel is closed (which a comment in the code says does not matter) and when the peer sends something that is not a blob.
* **C133** The SASL initiator is told once - partial, `SaslCliProps.v`: `C133_told_partial`, `C133_twice_refuted`, `C133_sync`, `C133_sync_refuted`. False when the reply of the listener is not a valid blob: the handler is called twice, and the synchronous call releases its queue twice.
* **C134** The SASL initiator is authenticated only if its library says so - partial, `SaslCliProps.v`: `C134_ok_partial`, `C134_given`, `C134_trusting_refuted`. False: a listener that says complete is believed, without the library having checked it.
* **C135** Asking again for a SASL authentication changes nothing - partial, `SaslCliProps.v`: `C135_again_partial`, `C135_again_refuted`. False: it removes the authentication there is.
* **C136** A TLS listener connection has done a handshake - partial, `TlsProps.v`: `C136_secure_partial`, `C136_zero_refuted`. False when SSL_accept returns 0, which is a handshake the peer stopped: the code takes every result that is not -1 for success, and flags the connection. Proved when it is never 0.
* **C137** Nothing goes in the clear after TLS is accepted - partial, `TlsProps.v`: `C137_clear_partial`, `C137_downgrade_refuted`, `C137_write_refuted`. False: after a handshake that failed without closing the socket the connection goes on in the clear, and a frame written by the sequencer before the handshake goes in the clear. Proved: nothing is read in the clear after proceed unless a handshake failed.
* **C138** TLS is not undone nor started twice - proved, `TlsProps.v`: `C138_once`. Active TLS stays, nothing more goes in the clear, and it is not started again.
* **C139** The TLS initiator is told exactly once - proved, `TlsProps.v`: `C139_told`. Exactly one notification, the last action, and about a connection that exists.
* **C140** VortexOk means TLS - proved, `TlsProps.v`: `C140_ok`. With the precondition that a flagged connection already uses the TLS handlers.
* **C141** A refused TLS leaves the connection as it was - partial, `TlsProps.v`: `C141_same_partial`, `C141_refused_refuted`, `C141_stall`. False: the SEQ frames were disabled before the reply and are not enabled again, so each channel receives one window and stops. Everything else is as it was.
* **C142** A connection whose handshake failed is closed - partial, `TlsProps.v`: `C142_failed_partial`, `C142_failed_refuted`. False: when SSL_connect ends with an error that is not in the list the new connection stays up, in the clear and not watched.
* **C143** Auto TLS does not give a connection in the clear - proved, `TlsProps.v`: `C143_auto`. 
* **C144** The synchronous TLS call gives what the handler is told - partial, `TlsProps.v`: `C144_sync_partial`, `C144_true`, `C144_again_refuted`, `C144_late_refuted`, `C144_released_refuted`. False on a connection that is already TLS, when the notification comes before the wait, and on a timeout with a status message. Proved for a caller that waits.
* **C145** vortex_tls_verify_cert accepts the certificates of the server name only - partial, `TlsProps.v`: `C145_verify_partial`, `C145_nul_refuted`, `C145_missing_refuted`. False for names with a NUL octet; a certificate without common name makes it read uninitialised memory. Proved for names without NUL and shorter than the buffer.
* **C146** The text of a digest determines it - proved, `TlsProps.v`: `C146_text`, `C146_distinct`. 
* **C147** An occurrence is reported through the PULL API exactly once - partial, `PullProps.v`: `C147_once_partial`, `C147_exactly_partial`, `C147_account`, `C147_twice_refuted`. False after cleanup and a second init: the handlers of the first are still there and a close gives two events. Proved for one init without cleanup.
* **C148** Events are fetched in the order they were pushed - proved, `PullProps.v`: `C148_fifo`. 
* **C149** A request to start or close a channel is never left without an answer - partial, `PullProps.v`: `C149_answered_partial`, `C149_dropped_refuted`, `C149_leaked_refuted`. False with cleanup: a deferred start whose event is in the queue, or about to be pushed, is dropped without an answer. Proved without cleanup.
* **C150** Exactly the masked events are filtered - proved, `PullProps.v`: `C150_filter`, `C150_bits`, `C150_ids`, `C150_skip`, `C150_masked`, `C150_kinds`, `C150_install`, `C150_change`. 
* **C151** An event lives while somebody has it and is freed once - partial, `PullProps.v`: `C151_safe_partial`, `C151_life_partial`, `C151_race_refuted`, `C151_waiter_refuted`, `C151_noconn_refuted`. False when cleanup runs while a handler is about to push or a thread waits in next_event; an event may come without connection. Proved for a cleanup with nobody in the queue and a user that touches only events it has.
* **C152** A wait set grows to the socket limit of the process - partial, `IoProps.v`: `C152_next_partial`, `C152_poll_partial`, `C152_room_partial`, `C152_epoll_partial`, `C152_eroom_partial`, `C152_overflow_refuted`, `C152_unlimited_refuted`, `C152_first`, `C152_count`. False: the doubling overflows an int for sets of 2^30 and more, and an unlimited process (RLIM_INFINITY) becomes -1, so the set never grows beyond 4096. Proved for limits up to 2^30.
* **C153** Exactly the readable sockets are dispatched - proved, `IoProps.v`: `C153_poll`, `C153_epoll`. 
* **C154** The wait blocks until there is something to do - partial, `IoProps.v`: `C154_data_partial`, `C154_sleep_partial`, `C154_ignored_refuted`, `C154_spin_refuted`. False: a socket with only HUP, ERR or NVAL is reported and never dispatched, so the wait returns at once again and again; epoll_wait over an empty set fails at once. Proved when what is reported is data and the set is not empty.
* **C155** select(2) is used within the limits of its set - partial, `IoProps.v`: `C155_inside`, `C155_set_partial`, `C155_added`, `C155_zero_refuted`, `C155_beyond_refuted`. False for descriptor 0 (never seen as set) and for one beyond FD_SETSIZE, such as a blocked connection that was not added (FD_ISSET outside of the set). Proved for the others.
* **C156** The reader releases every reference it takes - partial, `LoopProps.v`: `C156_account`, `C156_released_partial`, `C156_step_partial`, `C156_leak_refuted`, `C156_late_refuted`. False: what is still in the queue when the reader ends is never released, and a request pushed after the end uses a released queue. The account is proved for every run; all but what was queued is released.
* **C157** A request to stop ends the reader, once - partial, `LoopProps.v`: `C157_stop_partial`, `C157_once`, `C157_still`, `C157_lost_refuted`, `C157_dead_refuted`. False: a stop followed by another request in the same batch is lost (the last request decides), and a reader gone after two errors of the wait never answers. Proved when the stop is the last request and the I/O mechanism is not changed.
* **C158** A foreach visits the connections that are up and is answered - partial, `LoopProps.v`: `C158_account_partial`, `C158_visit`, `C158_eaten_refuted`. False: a foreach popped while the reader waits for the new I/O mechanism is never answered. Proved without such a change; what is left when the reader ends is not answered either.
* **C159** A connection that is up stays watched - partial, `LoopProps.v`: `C159_watched_partial`, `C159_set`, `C159_idle`, `C159_stale_refuted`. False: an unwatch flagged before the connection is watched removes it later although it is up. Proved for connections nobody unwatches.
* **C160** The connections with something to read are read in the turn - partial, `LoopProps.v`: `C160_select_partial`, `C160_events`, `C160_skipped_refuted`. False with select(2): a listener that went down counts as one of the sockets changed, so the last readable connections are skipped in the turn. Proved while the listed connections are up, and with dispatch.
* **C161** The reader changes of I/O mechanism only when it is installed - partial, `LoopProps.v`: `C161_installed_partial`, `C161_early_refuted`. False: any request queued between the two notifications makes the reader go on with the new wait set. Proved when no other request is queued in between.
* **C162** The session starts where the reply of the HTTP proxy ends - partial, `HttpProps.v`: `C162_only`, `C162_up`, `C162_start_partial`, `C162_headers_refuted`. False: only one line is read after the status line, so a reply with header fields leaves the rest of it in front of the BEEP greetings. Proved: no greetings without a 2xx reply, and the exact place where they start.
* **C163** The result of a connection through an HTTP proxy is always told - partial, `HttpProps.v`: `C163_handler_partial`, `C163_sync`, `C163_negative`, `C163_handler_refuted`. False with a handler: a negative reply of the proxy returns without calling it and without releasing the setup. Proved for every other outcome and for the synchronous call.
* **C164** A connection made through an HTTP proxy is known as such - partial, `HttpProps.v`: `C164_flag_partial`, `C164_handler_refuted`, `C164_down_refuted`. False: the flag is set after the synchronous call only (also when it failed), never when a handler is used.
* **C165** The CONNECT request names the host and nothing else - partial, `HttpProps.v`: `C165_lines_partial`, `C165_lines_refuted`. False for hosts with a line feed, which are written as they are. Proved for the rest.
* **C166** The hops of a tunnel are the ones configured - partial, `TunnelProps.v`: `C166_documented`, `C166_coherent_partial`, `C166_addresses_refuted`, `C166_dropped_refuted`. False: a hop that cannot be configured is dropped in silence, so the tunnel goes around it; both addresses of a hop can be given. Proved: every documented combination is taken in any order, and what is taken is coherent.
* **C167** A tunnel is created by asking each hop, in order - partial, `TunnelProps.v`: `C167_route_partial`, `C167_prefix`, `C167_all`, `C167_documents`, `C167_unsupported_refuted`, `C167_endless_refuted`. False: hops given with IPv6, a service without port, a uri or an endpoint are never contacted; resolvers can make a request endless. Proved for hops with a name or an IPv4 address and a port, for routes of any length.
* **C168** The result of vortex_tunnel_new is told - partial, `TunnelProps.v`: `C168_result_partial`, `C168_handler_refuted`. False: the handler is never called. Proved for the value returned.
* **C169** A tunnel ends at a listener only if the application agrees - proved, `TunnelProps.v`: `C169_answer`, `C169_bad`. 
* **C170** A relay passes the octets in order and without loss - partial, `TunnelProps.v`: `C170_order_partial`, `C170_all_partial`, `C170_gap_refuted`. False: a write that gives up after some octets leaves the connection up, and what follows is passed after a gap. Proved when each write is complete or closes the connection.
* **C171** Both sides of a relay end together and safely - partial, `TunnelProps.v`: `C171_end`, `C171_again_refuted`, `C171_released_refuted`, `C171_length_refuted`, `C170_all_partial`. False: a read with nothing to take closes both sides; after a failed write the partner is released and used again, or -1 octets are written. Proved: an end closes both sides, and without failed writes nothing undefined happens (C170_all_partial).
* **C172** A connection is accepted only if every handler agrees - proved, `ListenProps.v`: `C172_accept`, `C172_decided`. 
* **C173** The channel handlers of a connection are called at most once per channel - proved, `ListenProps.v`: `C173_once`. Each installation is a distinct handler: the reuse of an address released by the allocator is not modelled.
* **C174** Every channel handler installed is called - partial, `ListenProps.v`: `C174_all_partial`, `C174_skip_refuted`. False: the list is walked by position with the mutex released, so a handler that removes itself makes the next one be skipped. Proved when nothing is removed while the notification runs.
* **C175** A channel handler that was removed is not called - partial, `ListenProps.v`: `C175_removed_partial`, `C175_late_refuted`. False: the handler is copied, the mutex is released and then it is called; a removal in between returns before the call. Proved: only notifications that had started before the removal may call it.
* **C176** vortex_listener_wait and vortex_listener_unlock are safe together - partial, `ListenProps.v`: `C176_wait_partial`, `C176_freed_refuted`. False: the two functions use different mutexes; an unlock that finds a thread on its way to the queue destroys it. Proved for one waiting thread when no unlock overlaps that way.
* **C177** vortex_listener_unlock releases whoever waits - partial, `ListenProps.v`: `C177_lost_refuted`, `C177_two_refuted`, `C176_wait_partial`. False: an unlock between the test of the flag and the creation of the queue is lost; with two waiting threads only one is released and the queue of the other is destroyed. Proved for one waiting thread without overlap.
* **C178** Port sharing handlers are asked in order, up to the one that decides - proved, `ListenProps.v`: `C178_order`, `C178_roles`. For the first four octets received together; the other segmentations are C181.
* **C179** A port sharing handler is limited to its local address and port - partial, `ListenProps.v`: `C179_filter_refuted`. False: the address and port are stored and never compared.
* **C180** A port sharing handler that found nothing is not called again - partial, `ListenProps.v`: `C180_again_refuted`, `C180_detected_partial`. False: the answer 1 is not recorded, so every read of the connection asks again. Proved once a transport was found.
* **C181** The detection of transports does not depend on the segmentation - partial, `ListenProps.v`: `C181_beep_partial`, `C181_segments_refuted`, `C181_missed_refuted`. False: with less than four octets available the detection is skipped, the octets are read, and the next ones are examined. Proved when the first four octets arrive together.
* **C182** vortex_listener_shutdown closes the listener and what it created - partial, `ListenProps.v`: `C182_shutdown_partial`, `C182_only`, `C182_closed`, `C182_survivor_refuted`, `C182_unseen_refuted`. False: connections accepted between the visit of the reader and the shutdown of the listener, and the ones the reader does not have at that moment, stay open. Proved for the ones the reader has; nothing else is closed and nothing more is accepted.
* **C183** A MIME header that was set is found - partial, `HdrProps.v`: `C183_seen`, `C183_given`, `C183_count_refuted`. Proved: what is read for every name after every sequence of calls whose sizes fit an int. False for the count: the five usual names keep only the last value, so a name set twice counts one.
* **C184** Setting a MIME header again replaces it, setting it to NULL removes it - partial, `HdrProps.v`: `C184_other_partial`, `C184_overwrite_refuted`, `C184_removal_refuted`. False: a name set again gets a second value after the first one, and a removal of a name with several values keeps the first one. Proved: other names are not changed by a removal.
* **C185** The size of the MIME headers is the size of the text they make - partial, `HdrProps.v`: `C185_size`, `C185_block_refuted`, `C185_negative_refuted`. Proved: the size without removals is two plus the lengths and two for each header. That is not the size of the text (": " and CR LF are four), and removals can make it negative.
* **C186** The memory of frames is safe and is released - partial, `FrameProps.v`: `C186_memory_partial`, `C186_held_refuted`, `C186_calls_refuted`. Proved for every program that keeps the contract written in FrameSpec.v; false if the only condition is to hold the references: vortex_frame_join_extending on a received or MIME-processed frame frees or reallocates memory it does not own, the content of the join of processed frames and of a frame with added headers is read past its end, and so does a copy of a processed frame with an added header.
* **C187** A frame returns what it was created with - partial, `FrameProps.v`: `C187_values_partial`, `C187_more_refuted`. All the answers are the ones of frames as values; the more flag given to the creation functions is not stored.
* **C188** A copy of a frame equals the frame - partial, `FrameProps.v`: `C188_copy_equal_partial`, `C188_copy_equal_refuted`. Proved for complete frames without MIME headers and with a payload; false for a frame with the more flag or with an empty payload read from a connection.
* **C189** Equal frames have the same payload - partial, `FrameProps.v`: `C189_equal_partial`, `C189_equal_refuted`. The payloads are compared as C strings: proved without zero octets, false with them.
* **C190** A join holds both payloads and changes neither source - partial, `FrameProps.v`: `C190_join_partial`, `C190_first_refuted`. The payload is proved; the headers of the first frame move to the join.
* **C191** A copy is independent of its original - partial, `FrameProps.v`: `C191_stable_partial`, `C191_copy_partial`, `C191_headers_refuted`. Proved for payloads; the MIME headers are shared between a frame and its copies.
* **C192** Joining the fragments of a message as they arrive gives the message - proved, `FrameProps.v`: `C192_fragments`. 
* **C193** A start request is read by the peer as the application asked - partial, `MsgProps.v`: `C193_start_partial`, `C193_server_refuted`, `C193_content_refuted`, `C193_nul_refuted`. Read back exactly for names without quote, < and & and for contents without "]]>" and zero octets (with the reader of XML of MsgSpec.v). Nothing is escaped: a serverName can make the peer start another profile, a content with "]]>" is cut, and the size of the content is not used, so that it ends at its first zero (refuted).
* **C194** Close requests, errors and start replies are read as they were written - partial, `MsgProps.v`: `C194_close_partial`, `C194_error_partial`, `C194_reply_partial`, `C194_error_refuted`. As C193; an error text with "<" is not a document any more (refuted).
* **C195** The kind of a message of channel 0 is the one of its element - partial, `MsgProps.v`: `C195_kind_partial`, `C195_prefix_refuted`. The element decides, but any element whose name starts with start, close, error or ok is taken for it (refuted).
* **C196** Whatever arrives on channel 0 is answered or ends the session - partial, `MsgProps.v`: `C196_defined_partial`, `C196_unreadable`, `C196_crash_refuted`, `C196_silent_refuted`. The validation of the messages is commented out in the code: a request without the attribute number makes atoi read a null pointer (refuted), and a message ok or error is not answered (refuted). Proved: no undefined behaviour when the attribute is there and fits an int, and the answers to what is not XML.
* **C197** The channel of a request is the number written in it - partial, `MsgProps.v`: `C197_number_partial`, `C197_number_refuted`, `C197_profile_refuted`. Proved for decimal numbers; numbers that are not one, negative or empty are accepted as 0 or as their prefix, and so is a start without profile (refuted).
* **C198** Who decides, who is told and what is listed follow the registrations - proved, `ProfProps.v`: `C198_in_turn`. 
* **C199** Profiles can be registered, used and unregistered from any thread - partial, `ProfProps.v`: `C199_no_unregister_partial`, `C199_guarded_partial`, `C199_asked_refuted`, `C199_again_refuted`. Safe when nothing is unregistered, and with unregistering as long as no registered profile is registered again and nobody asks if it has a start or close handler; those functions use the profile without a reference and without the mutex (refuted).
* **C200** The memory of an unregistered profile is released - proved, `ProfProps.v`: `C200_released`. 
* **C201** A handler is called with the data given with it - partial, `ProfProps.v`: `C201_origin`, `C201_pair_refuted`. The handler and the data come from calls for that profile and kind of handler; but they are read and written one at a time, so that a handler may get the data of another one (refuted).
* **C202** A greeting lists all the registered profiles - proved, `ProfProps.v`: `C202_greeting`. 
* **C203** It can be asked if a profile has a frame received handler - partial, `ProfProps.v`: `C203_received_refuted`. False: the function looks at the close handler, which is never null.
* **C204** A frame accepted for a profile reaches its handler - partial, `ProfProps.v`: `C204_delivered_partial`, `C204_delivered_refuted`. Proved when no call takes the received handler away; otherwise an accepted frame may be dropped (refuted).
* **C205** Who gets a frame - partial, `DlvProps.v`: `C205_recipient`, `C205_waiting_refuted`. The order is proved for all states; but a thread that waits for a reply does not get it when the context has a frame received handler (refuted).
* **C206** A frame received is kept in one place until it is released once - proved, `DlvProps.v`: `C206_once`. 
* **C207** The channel and the connection are in memory while their frames are delivered - partial, `DlvProps.v`: `C207_in_memory_partial`, `C207_in_memory_refuted`. Proved while no other channel is opened with the same number; with one, a pending task of the profile takes a reference from it (refuted).
* **C208** The delivery of frames releases what it takes - partial, `DlvProps.v`: `C208_released_partial`, `C208_profile_refuted`, `C208_parameters_refuted`, `C208_serialised_refuted`. Proved without serialize and with handlers of channels, or while the connection, the channel and the handler last; the other cases leak (refuted).
* **C209** No frame is lost while there is a handler for it - partial, `DlvProps.v`: `C209_delivered_partial`, `C209_none_dropped`, `C209_serialised_refuted`. With serialize a frame without content may take the place of another one (refuted).
* **C210** Several threads may end the execution and only one does it - proved, `CtxProps.v`: `C210_once`. 
* **C211** vortex_exit_ctx is reentrant - partial, `CtxProps.v`: `C211_safe_partial`, `C211_late_refuted`, `C211_locked_refuted`. Proved when no call begins while another thread is entering; calls at the same time lock, or destroy, the exit mutex wrongly (refuted).
* **C212** The cleanups of a context are all called once, in order - partial, `CtxProps.v`: `C212_called_partial`, `C212_removed_refuted`, `C212_free_refuted`. Proved without removals during the end; a cleanup that removes itself makes the next one be skipped and vortex_ctx_free calls none (refuted).
* **C213** A context is released once, when its last reference is given back - partial, `CtxProps.v`: `C213_released_partial`, `C213_log_refuted`. With logs that use the mutex the release locks a mutex that was destroyed (refuted).
* **C214** vortex_ctx_unref leaves NULL in the pointer of the caller exactly when it releases the context - partial, `CtxProps.v`: `C214_null_partial`, `C214_alone_partial`, `C214_two_refuted`. Two threads that release at the same time keep pointers to a released context (refuted).
* **C215** The idle handler is not called twice at the same time for a connection - proved, `IdleProps.v`: `C215_apart`. 
* **C216** The idle handler is called for idle connections, as configured - partial, `IdleProps.v`: `C216_idle_partial`, `C216_configured_partial`, `C216_setting_refuted`, `C216_active_refuted`. Each call follows a time at which the reader found the connection idle, and the configuration is respected if it does not change; the handler is stored before its period and data, and the activity after the decision is not seen (refuted).
* **C217** The connection is in memory while its idle handler runs - proved, `IdleProps.v`: `C217_in_memory`. 
* **C218** A notification gives its reference back - partial, `IdleProps.v`: `C218_references_partial`, `C218_removed_refuted`, `C218_pool_refuted`. Proved when the handler is configured once and the pool is not stopped; a handler taken away or a pool stopped with a notification under way lose a reference for ever (refuted).
* **C219** The idle handler is called each max_idle_period - partial, `IdleProps.v`: `C219_called_partial`, `C219_never_refuted`, `C219_twice_refuted`. A connection that is idle is notified by the next pass if nothing is under way; but it may be notified twice in the same second, or never again after the handler was taken away for a moment (refuted).
* **C220** The totals of a connection are the octets transferred - proved, `IdleProps.v`: `C220_totals`. Totals without upper limit (a long in the code).
* **C221** An XML-RPC call arrives as it was made - partial, `RpcProps.v`: `C221_call_partial`, `C221_unfilled`, `C221_text_refuted`, `C221_double_refuted`, `C221_base64_refuted`, `C221_name_refuted`, `C221_set_refuted`. Proved for names without markup, ints of 32 bits, doubles that are integers of six digits, texts without "]]>", none, and full structs and arrays of these, nested at will. Refuted: a text with "]]>", the double 1234567 (arrives as 1234570), a name with "<"; a base64 or a date is undefined behaviour; a parameter given by position with set_value is not counted, and the call is not written.
* **C222** An XML-RPC response arrives as it was made - partial, `RpcProps.v`: `C222_response_partial`, `C222_none_refuted`, `C222_fault_refuted`. Proved for the same values, base64 and faults; a none or a date gives no reply, and a fault without text a null response (refuted).
* **C223** What is not an XML-RPC value is refused - partial, `RpcProps.v`: `C223_int_partial`, `C223_boolean_partial`, `C223_text_partial`, `C223_value_element_partial`, `C223_call_element_partial`, `C223_lax_refuted`, `C223_untyped_refuted`, `C223_shift_refuted`. The texts accepted as int and boolean are characterised exactly; the empty text is 0, 4294967297 is 1, 7 is a boolean, any text is a double, a value without type is refused and a bad parameter shifts the following ones (refuted).
* **C224** A value received can be looked into - partial, `RpcProps.v`: `C224_look_partial`, `C224_inside_partial`, `C224_hole_refuted`, `C224_int_refuted`. Safe if every member received is a value; otherwise the member count includes places that are null, and asking a text as an int reads the octets of a pointer (refuted).
* **C225** A call is given to the service that accepts its resource - partial, `RpcProps.v`: `C225_order_partial`, `C225_refused_refuted`, `C225_deferred_refuted`. The handlers called are a prefix of the list, once each; but one whose validation refused is called, and a deferred call is given to the next one too (refuted).
* **C226** A call is answered with the response of its handler - partial, `RpcProps.v`: `C226_served_partial`, `C226_unread_partial`, `C226_unread_refuted`, `C226_none_refuted`. End to end for sendable calls and responses; nothing is answered to a call that cannot be read nor for a none (refuted).
* **C227** An XML-RPC invocation is told of its own response - partial, `InvokeProps.v`: `C227_own_reply_partial`, `C227_crossed_refuted`, `C227_peer_message_refuted`, `C227_answers_refuted`, `C227_retry_refuted`. Proved for applications that make an invocation when the previous ones were told (and, if failed, ended) and peers that only reply; two invocations at once, a message or an ANS of the peer, or a handler that retries when told of a failure use memory released (refuted).
* **C228** Every XML-RPC invocation is told of something - partial, `InvokeProps.v`: `C228_told_partial`, `C228_not_blocked_partial`, `C228_closed_refuted`. Proved while the connection stays, for the same applications and peers; the handler of an invocation whose connection is closed is never told (refuted).
* **C229** A reply handler is called at most once - partial, `InvokeProps.v`: `C229_one_frame`, `C229_at_most_once_partial`, `C229_twice_refuted`. At most one frame in every run; at most once if no message fails to be sent. Otherwise it may be told twice (refuted).
* **C230** The application knows if its invocation was taken, and its method call is released - partial, `InvokeProps.v`: `C230_released_partial`, `C230_returned_refuted`. The method call is released when its task ends, once; that of a refused invocation never is, and the value returned is always false (refuted).
* **C231** Closing a connection created by the application is safe - partial, `ConnEndProps.v`: `C231_initiator_partial`, `C231_twice_refuted`. Proved for callers that hold a reference or whose previous calls returned false, with losses at any moment; a second call without a reference uses memory released (refuted, as documented).
* **C232** A close drops the reference of the application once - proved, `ConnEndProps.v`: `C232_initiator`, `C232_not_started`. For the callers of C231.
* **C233** A close that returns true closed the connection - partial, `ConnEndProps.v`: `C233_true_partial`, `C233_true_refuted`. Proved if no call returns false; otherwise a concurrent caller may be told true of a connection that stays open (refuted).
* **C234** Closing a connection owned by the library is safe - partial, `ConnEndProps.v`: `C234_accepted_partial`, `C234_not_owned_refuted`, `C234_stolen_refuted`, `C234_listener_refuted`. Proved for callers that hold a reference to a connection accepted that is not lost meanwhile; without a reference the close races with the reader, and if the connection is lost it drops a reference of others (refuted).
* **C235** A timeout configured is the one used - partial, `TmoProps.v`: `C235_set_get_partial`, `C235_connect_partial`, `C235_default`, `C235_new_context`, `C235_range_refuted`. Proved for the values an int holds (for the synchronous timeout, other than 0); the others are truncated or ignored (refuted).
* **C236** Configuring 0 restores the default timeout - partial, `TmoProps.v`: `C236_last_got_partial`, `C236_default_refuted`. 0 leaves the value that was got last: the default only if no other was ever got (refuted otherwise).
* **C237** The timeouts of a context do not change those of another - partial, `TmoProps.v`: `C237_once_got_partial`, `C237_connect_once_got_partial`, `C237_shared_refuted`. Proved for a context already asked for its timeout; before that, it uses what was configured last on any context (refuted).
* **C238** A timeout read by several threads is the one configured - partial, `TmoProps.v`: `C238_once_got_partial`, `C238_from`, `C238_lost_refuted`. Proved once one call returned with no other under way; otherwise the first calls may put the old value back for good (refuted). Every value returned is the default or one configured.
* **C239** A connect that fails leaves no socket and says why - partial, `DialProps.v`: `C239_sockets`, `C239_defined_partial`, `C239_sets_partial`, `C239_reserved_refuted`, `C239_sets_refuted`. The sockets: proved. A descriptor below 3 is reported with a format that lacks its argument (undefined behaviour, refuted), and a waiting set is leaked when the I/O mechanism gives -3 (refuted).
* **C240** A socket given by a connect is connected, and one connected in time is given - partial, `DialProps.v`: `C240_connected_partial`, `C240_given_partial`, `C240_below_a_second_refuted`, `C240_errno_refuted`. Proved for timeouts that are not below one second and with errno not EBADF before the wait (both refuted otherwise).
* **C241** A connect does not time out before its time - partial, `DialProps.v`: `C241_not_before_partial`, `C241_from_2038`, `C241_year_2038_refuted`. Proved for clocks an int holds; from 2038 on every connect with a timeout fails at once (refuted).
* **C242** The greetings have the rest of the timeout - partial, `DialProps.v`: `C242_left_partial`, `C242_waits_partial`, `C242_below_a_second_refuted`, `C242_tick_refuted`. Proved for timeouts of a second or more when the clock does not reach the deadline; below a second greetings not there yet are refused at once (refuted).
* **C243** The creation of a connection is notified once - partial, `DialProps.v`: `C243_told_partial`, `C243_lost_refuted`. Proved if getsockname and getnameinfo work; otherwise nobody is told and the socket stays open (refuted).
* **C244** A reconnect keeps the identity and the data of a connection and drops its channels - proved, `AgainProps.v`: `C244_connected`, `C244_kept`, `C244_channels_told`. For all connections, handlers and outcomes; the connect itself is the one of Dial, here a parameter.
* **C245** The session made by a reconnect is read from its first byte - partial, `AgainProps.v`: `C245_greeted_partial`, `C245_reader_partial`, `C245_flagged`, `C245_rest_refuted`, `C245_piece_refuted`. Holds when nothing of the earlier session is kept, which is the case when the reader finds the end by itself. Refuted otherwise: reconnect does not clear the partial frame, the pending line, the counter of empty reads nor the piece of greetings, so the greetings of the new session are taken as the rest of a frame of the old one.
* **C246** A reconnect uses the transport it connects - partial, `AgainProps.v`: `C246_clear_partial`, `C246_tls_refuted`. Holds for sessions in the clear. Refuted for TLS: the send and receive handlers are not restored, so no reconnect of a secured connection succeeds. That the handlers of a dead TLS session give an error is assumed.
* **C247** The reader holds one reference for each time it watches a connection - partial, `AgainProps.v`: `C247_references`, `C247_forgotten`, `C247_once_refuted`. The accounting of references and that a connection over is forgotten are proved for all interleavings. Refuted: a connection made again before the reader notices the end is watched twice.
* **C248** The value of a reconnect and its handler say if the connection works - partial, `AgainProps.v`: `C248_value_partial`, `C248_value_refuted`. Holds when the local address is known. Refuted when getsockname or getnameinfo fail: false is returned, or the handler never called, with a connection that says it is ok and nobody reads.
* **C249** A reconnect releases what the session before it allocated - partial, `AgainProps.v`: `C249_kept_partial`, `C249_leak_refuted`. The exact number of local addresses held is proved; it grows by one with each connect.
* **C250** Text of the peer is never a format - partial, `LogProps.v`: `C250_recorded_partial`, `C250_peer_partial`, `C250_trailer_refuted`, `C250_greeting_refuted`, `C250_name_refuted`. The text recorded is exactly the one expected when the log is off, or no text has a percent sign. Refuted with the log on: the whole text is given to vortex_log as the format, so the content of a bad frame, of bad greetings or the server name reaches printf as a format (undefined behaviour).
* **C251** The log shows the levels the last filter leaves - partial, `LogProps.v`: `C251_filter_partial`, `C251_none_partial`, `C251_off`, `C251_adds_partial`, `C251_last_refuted`. Proved for the first filter and for NULL. Refuted: the levels of each filter are added to the ones before and never taken away.
* **C252** Each log handler gets the message and arguments it can use - partial, `LogProps.v`: `C252_one_partial`, `C252_escaped`, `C252_prepared_partial`, `C252_both_refuted`, `C252_prepared_refuted`. Proved for one handler and for prepared logs whose handlers do not expand (or text without conversions). Refuted: with both handlers the list of arguments is used twice, and prepared with a handler that expands.
* **C253** The settings of the log are the ones given - partial, `LogProps.v`: `C253_enable`, `C253_env`, `C253_color_partial`, `C253_color_refuted`, `C253_mutex_refuted`. vortex_log_enable and the environment are proved. Refuted: the color disabled is enabled again by the environment, and vortex_log_acquire_mutex (false) enables the mutex.
* **C254** A configuration accepted is in force - partial, `LogProps.v`: `C254_kept_partial`, `C254_soft`, `C254_raised`, `C254_hard_partial`, `C254_told_partial`, `C254_zero_refuted`, `C254_hard_refuted`, `C254_wide_refuted`. Proved for the values other than 0 and hard limits not under the soft one. Refuted: 0 is never accepted, a hard limit under the soft one is told set and is not, limits over 32 bits are told truncated.
* **C255** A log always ends - partial, `LogProps.v`: `C255_ends_partial`, `C255_handler_refuted`. Proved without the mutex of the log or out of a handler. Refuted: a log handler that logs, with the mutex (even asked off), waits for itself.
* **C256** What the transport holds is read without waiting for the socket - proved, `PendProps.v`: `C256_drained`, `C256_ends`. Nothing is held by the transport after a round of the reader, unless the connection is down or unwatched, and the round ends.
* **C257** Frames over TLS and WebSocket are those sent - partial, `PendProps.v`: `C257_stream_partial`, `C257_slow_refuted`. Proved for records that come whole, with less than 25 arrivals (or: delivered exactly unless closed for too many reads without data, then a prefix). Refuted in general: a header that comes in more than 25 arrivals closes the connection.
* **C258** A record that arrives in pieces is like one that arrives at once - partial, `PendProps.v`: `C258_header_partial`, `C258_closes`, `C258_silent`, `C258_body_refuted`. Proved when no body is half read. Refuted: a piece of a record that comes while a body is half read closes the connection (also proved: it always does).
* **C259** The greetings are read whatever their records - partial, `PendProps.v`: `C259_greetings_partial`, `C259_ending`, `C259_down`, `C259_after_refuted`, `C259_frames_refuted`. Proved for greetings in one frame, cut in any records, with nothing after it. Refuted: a frame in the record of the greetings is not read until more comes to the socket; greetings of two frames in one record are never read.
* **C260** The setup of an external transport lives as long as something uses it - partial, `ExtProps.v`: `C260_lives_partial`, `C260_mutex_partial`, `C260_shared_refuted`, `C260_released_refuted`, `C260_mutex_refuted`. Proved when the user takes a reference for each connection, does not configure the mutex meanwhile, and for the mutexes when MUTEX_IO is on. Refuted: two connections over the only reference, or a user that releases the setup it created, end in a use after free; without MUTEX_IO a mutex that was never created is destroyed.
* **C261** With VORTEX_EXTERNAL_CONF_MUTEX_IO the handlers are not called at the same time - partial, `ExtProps.v`: `C261_apart_partial`, `C261_accepted_refuted`, `C261_on_refuted`, `C261_off_refuted`. Proved for connections created (not accepted) with the mutex configured before. Refuted: accepted connections do not use the mutex; turned on while a handler runs an unlocked mutex is unlocked; turned off while a handler runs it is held for ever and the connection is never freed.
* **C262** What a new external connection returns and tells - partial, `ExtProps.v`: `C262_returned_partial`, `C262_told_refuted`, `C262_never_told`, `C262_lost_refuted`, `C262_handlers_refuted`. Proved: what is returned, the setup and the prepare handler. Refuted: on_connected is never called; without memory for the data the connection is lost; NULL handlers are called.
* **C263** The host and port configured are those reported - partial, `ExtProps.v`: `C263_host_refuted`, `C263_never`. Refuted: the values are stored and never used; no connection reports them.
* **C264** An external connection or listener closes only its descriptor - partial, `ExtProps.v`: `C264_client`, `C264_listener_partial`, `C264_listener_refuted`. Proved for connections, and for listeners whose number is not given again. Refuted: a listener closes its descriptor when it is shut down and the same number again when it is freed.
* **C265** Python on-close handlers and their handles are safe to use - partial, `PyProps.v`: `C265_closed_partial`, `C265_late_refuted`, `C265_race_refuted`, `C265_other_refuted`. Proved for handles given back to their own connection before it is closed. Refuted: a handle given back after the handler was called, while the closing thread waits for the interpreter, or to another connection (or one closed) leads to a use of released memory.
* **C266** A vortex.Connection never uses a connection that was freed - partial, `PyProps.v`: `C266_safe_partial`, `C266_listener_refuted`. Proved for connections created or accepted. Refuted: a listener shut down (or broken) and then closed drops two references, one of them the one of the reader.
* **C267** Collected vortex.Connection objects release their connection - partial, `PyProps.v`: `C267_initiator_partial`, `C267_accepted_partial`, `C267_accepted_refuted`, `C267_twice_refuted`, `C267_listener_refuted`. Proved for a connection created by the program and closed through that object, and for accepted connections that are not closed by the program. Refuted: an accepted connection closed, two objects of a connection both closed, and a listener that could not be started are never freed.
* **C268** vortex.AsyncQueue returns what was pushed, in order, and balances the references - partial, `PyProps.v`: `C268_queue_partial`, `C268_collect_partial`, `C268_left_refuted`, `C268_none_refuted`. Proved as long as no connection is broken under a get_reply, and for a queue collected when empty. Refuted: what is left inside a queue is never released; None pushed and a timeout are told the same.
* **C269** channel.get_reply on a broken connection is safe - partial, `PyProps.v`: `C269_reply_partial`, `C269_mark_refuted`, `C269_piggyback_refuted`. Proved for queues only read by get_reply. Refuted: the mark left in the queue is used as an object by the next pop; the frame of a piggyback reply is never released.
* **C270** Every frame reaches the Python handler configured - partial, `PyProps.v`: `C270_frames_partial`, `C270_open_refuted`, `C270_unset_refuted`. Proved when frames come after a handler was given and none is on its way when it is removed. Refuted: a frame before open_channel stored the handler, or waiting when it is removed, calls NULL.
* **C271** The Python send methods send the content given - partial, `PyProps.v`: `C271_content_partial`, `C271_none_refuted`, `C271_size_refuted`. Proved for sizes from -1 to the length (exactly when it is undefined is also proved). Refuted: None with -1, None with a size in send_rpy, sizes past the end and negative ones.
* **C272** A Python event finishes cleanly - partial, `PyProps.v`: `C272_events_partial`, `C272_raise_refuted`, `C272_remove_refuted`. Proved: no use after release, nothing after the release, references balanced without exceptions. Refuted: an exception keeps one reference to the context for ever; remove_event releases nothing.
* **C273** A WebSocket setup lives while somebody holds it - partial, `WsProps.v`: `C273_setup_lives_partial`, `C273_setup_values`, `C273_no_leak_refuted`, `C273_any_use_refuted`. Proved for programs that own the reference each connection takes, and for no leak if origin and host are configured once. Refuted: configured twice, the earlier string is lost; the reference is consumed by the first connection.
* **C274** Certificates are verified unless the program says otherwise - partial, `WsProps.v`: `C274_verified_partial`, `C274_by_default_refuted`. The certificate is verified exactly if it was configured last to be. Refuted: the documented default.
* **C275** The handshake of a WebSocket connection respects the connect timeout - partial, `WsProps.v`: `C275_waits_partial`, `C275_within_refuted`. Proved from one second on. Refuted below: the handshake is waited for 60 seconds.
* **C276** The outcome of a WebSocket connection is told once, with what was asked - partial, `WsProps.v`: `C276_client_partial`, `C276_asked`, `C276_ipv6_refuted`, `C276_proxy_refuted`, `C276_options_refuted`. Proved for the result, the headers and the TLS mark. Refuted: names of IPv6 hosts are cut, the proxy is not used, and connection options are never released.
* **C277** An accepted WebSocket connection is known by the host it asked for - proved, `WsProps.v`: `C277_named`, `C277_others`, `C277_once`. For every accepted connection and header.
* **C278** WebSocket listeners accept as other listeners do - partial, `WsProps.v`: `C278_let_in_partial`, `C278_refused_refuted`, `C278_ready_refuted`. Proved for connections let in. Refuted: a refused one is used after its release; the ready handler is never called.
* **C279** WebSocket peers are recognised on the port of a BEEP listener - partial, `WsProps.v`: `C279_detected_partial`, `C279_state`, `C279_every_tls_refuted`, `C279_released_refuted`. Proved for GET, TLS records of version 3.1 and BEEP greetings. Refuted: other TLS versions are not recognised; a failed handshake loses a noPoll connection.
* **C280** XML-RPC values used as documented never touch released memory - proved, `ValProps.v`: `C280_safe`. for every careful program, as ValSpec.fair says
* **C281** XML-RPC values are released completely - partial, `ValProps.v`: `C281_no_leak_partial`, `C281_refuted`. proved if nothing contains itself; refuted: an array added to itself is never released
* **C282** Values set in arrays and calls replace and release the old ones - partial, `ValProps.v`: `C282_added`, `C282_set`, `C282_refuted`, `C282_set_refuted`, `C282_full_refuted`, `C282_get_refuted`. what is read is proved; refuted: array_set does not release the value replaced; a call filled by position is not released; a value created for a full call is lost; a value set beyond those added is not read
* **C283** The copy of an XML-RPC value is independent - partial, `ValProps.v`: `C283_copy`, `C283_kept`, `C283_refuted`. proved for all but dates; refuted: a date is not copied
* **C284** Structs are accepted exactly if their members are the expected ones - partial, `ValProps.v`: `C284_names_partial`, `C284_types_partial`, `C284_refuted`, `C284_part_refuted`. proved for structs with all their members and known types; refuted: an unknown type accepts any member, a struct not filled reads a NULL pointer
* **C285** The result of a generated XML-RPC stub can be used after the response is released - partial, `ValProps.v`: `C285_text`, `C285_fault`, `C285_other`, `C285_shown`, `C285_struct_refuted`, `C285_array_refuted`, `C285_leak_refuted`, `C285_twice_refuted`, `C285_gone_refuted`. strings and faults proved; refuted: the struct or array given was released; a struct asked for as a string leaks; the fault text released as documented is released twice; a second equal fault releases the first text
* **C286** A function of the Lua bindings runs only with the parameters it describes - partial, `LuaProps.v`: `C286_exact`, `C286_accepts`, `C286_optional_partial`, `C286_last_refuted`, `C286_excess_refuted`, `C286_quiet_refuted`. exact for descriptions without optional parameters, and no right call is refused; refuted: the last optional parameter given is not checked, any number of them is accepted, and an object of another type is refused without an error
* **C287** A vortex.asyncqueue gives back the Lua values pushed, in order - partial, `LuaProps.v`: `C287_fifo_partial`, `C287_released`, `C287_boolean_refuted`. proved for all values but booleans; refuted: a boolean comes out as the queue itself, or as the time given to timedpop
* **C288** One thread at a time runs Lua - partial, `LuaProps.v`: `C288_exclusive_partial`, `C288_left_partial`, `C288_unlock`, `C288_nested_refuted`, `C288_listeners_refuted`, `C288_waiting_refuted`. proved when only the main program registers handlers and wait_listeners is not used; refuted: a handler registered by a handler runs under another lock, wait_listeners returns without the lock, and a handler that waits in a queue keeps the lock
* **C289** vortex.event_fd and vortex.wait_events tell that a handler waits - partial, `LuaProps.v`: `C289_readable_partial`, `C289_time`, `C289_pause`, `C289_ever`, `C289_negative`, `C289_late_refuted`, `C289_input_refuted`. proved when the descriptor is made before any handler; refuted: made while a handler waits it misses another one, and without it wait_events watches the standard input
* **C290** What a Lua handler returns is what the library gets - partial, `LuaProps.v`: `C290_top`, `C290_room_partial`, `C290_void`, `C290_first_partial`, `C290_event_refuted`, `C290_room_refuted`. proved for the answers read on the top of the stack and for the first event of a thread; refuted: later events get the answer of the first call, and the stack runs out of places after 17 calls
* **C291** Each thread runs its Lua handlers on a state of its own - partial, `LuaProps.v`: `C291_same`, `C291_apart_partial`, `C291_refuted`. the same state for a thread is proved; refuted: threads whose identifiers agree in the low 32 bits share one
* **C292** A Lua channel sends the content it is given - partial, `LuaProps.v`: `C292_whole_partial`, `C292_part`, `C292_cut_refuted`, `C292_beyond_refuted`. sizes within the string are proved; refuted: -1 cuts the string at a NUL, and a size beyond the string reads other memory
* **C293** A connection lives while a Lua object points to it, and no longer - partial, `LuaProps.v`: `C293_safe_partial`, `C293_freed_partial`, `C293_tls_closes`, `C293_tls_refuted`, `C293_leak_refuted`. proved without failed TLS (and without close for the release); refuted: after a TLS attempt that fails two objects count as one reference, and a connection closed by a handler is never released
* **C294** vortex.sasl finds the mechanism named, and accepts who the handler accepts - partial, `LuaProps.v`: `C294_known`, `C294_full`, `C294_accept`, `C294_unknown_refuted`. known names and answers are proved; refuted: any unknown name is taken for KERBEROS_V4
* **C295** Data attached to a context, a connection or a channel is given back as last stored - proved, `DataProps.v`: `C295_values`. For applications that follow the rules of fits (DataSpec.v): what is given with a destroy function is given once, other keys last.
* **C296** Data stored with destroy functions is freed exactly once - proved, `DataProps.v`: `C296_once`, `C296_accounted`, `C296_released`. Under the same rules; what is taken back with delete_key_data or delete_data is the application's again.
* **C297** Removing data with a NULL value releases the key given for it - partial, `DataProps.v`: `C297_null`, `C297_leak_refuted`. Refuted: the key is neither stored nor released, its destroy function is ignored (proved for every state).
* **C298** Storing again the value that is stored keeps it - partial, `DataProps.v`: `C298_again`, `C298_refuted`. Refuted: the value is freed and stays stored; its holder then frees it a second time (proved for every history).
* **C299** A value stored is valid until its key is stored again, removed or its holder ends - proved, `DataProps.v`: `C299_valid`. 
* **C300** A value given by get_data can be used while another thread stores a new one - partial, `DataProps.v`: `C300_refuted`. Refuted: the value replaced is freed at once, whoever has it.
* **C301** A command line is understood as it is written - proved, `ArgProps.v`: `C301_accepted`. 
* **C302** A wrong command line stops the program - proved, `ArgProps.v`: `C302_unknown`, `C302_twice`, `C302_no_value`, `C302_free`. 
* **C303** Obligatory arguments and dependencies are there when parsing returns - partial, `ArgProps.v`: `C303_obligatory`, `C303_depends_partial`, `C303_related`, `C303_relate_refused`, `C303_made_obligatory`, `C303_depends_refuted`. Obligatory arguments proved. Dependencies proved when no exclusion is broken; refuted otherwise: the checks end at the first exclusion broken.
* **C304** Arguments that exclude each other are never both defined after parsing - partial, `ArgProps.v`: `C304_said`, `C304_refuted`. Refuted: a message is printed (proved for every line) and the program goes on with both defined.
* **C305** Every option installed can be given, with any number - partial, `ArgProps.v`: `C305_value_refuted`, `C305_name_refuted`. Refuted: -5 is taken as an option (-15 is not), and a name that begins with help shows the help.
* **C306** A file name is a free word wherever it is on the line - partial, `ArgProps.v`: `C306_refuted`. Refuted: /a.idl is taken as a Windows option unless a Unix option came before.
* **C307** Two installed options never share a name - partial, `ArgProps.v`: `C307_installed`, `C307_refused`, `C307_apart_partial`, `C307_refuted`. Names stay apart when the new short name is no long name already installed; refuted otherwise. A refusal may also come from a short name that only begins as the new one.
* **C308** Parsing reads only the words of the command line - partial, `ArgProps.v`: `C308_null`, `C308_over_partial`, `C308_refuted`. No null pointer, proved. Lengths proved when the options on the line have six bytes or more; refuted for short ones such as -v.
* **C309** A channel lives exactly as long as something holds it - proved, `LifeProps.v`: `C309_references_are_owners`. 
* **C310** Calls on living pools and channels never use freed memory nor hang - partial, `LifeProps.v`: `C310_fair_uses_are_safe_partial`. Proved under the conditions of fair (LifeSpec.v); without them it is false: see C311, C312 and C316.
* **C311** A channel detached from a pool does not depend on it - partial, `LifeProps.v`: `C311_detached_channel_is_safe_refuted`. Refuted: the detach leaves the pointer to the pool in the channel, and the free of the channel follows it.
* **C312** Detaching a channel from its pool returns - partial, `LifeProps.v`: `C312_detach_returns_refuted`. Refuted: the last reference is released with the mutex of pools locked, and the free of the channel locks it again.
* **C313** A pool counts open channels only - partial, `LifeProps.v`: `C313_members_are_open_refuted`. Refuted: a channel closed by itself or by its peer stays in the list of its pool.
* **C314** vortex_channel_get_pool names the pool that has the channel - partial, `LifeProps.v`: `C314_attached_channel_names_its_pool_refuted`, `C314_pool_named_has_the_channel_refuted`. Refuted both ways: attach does not set the pool and detach does not clear it.
* **C315** Creating, adding, removing and closing change only what they name - proved, `LifeProps.v`: `C315_new_pool`, `C315_add`, `C315_remove`, `C315_close`. 
* **C316** Removing channels from a pool returns whatever their handlers do - partial, `LifeProps.v`: `C316_remove_returns_refuted`. Refuted: channels are closed with the mutex of pools locked, which is not recursive.
* **C317** Asking for an I/O mechanism installs all of it or nothing - partial, `MechProps.v`: `C317_result`, `C317_one_mechanism_partial`, `C317_user_handler_refuted`. The result and the mechanism told are proved; that all handlers are of one mechanism, for users that set none. Refuted: a handler set by the user stays when the current mechanism is asked for.
* **C318** A set of sockets is only given to the handlers that made it - partial, `MechProps.v`: `C318_same_mechanism_partial`, `C318_other_thread_refuted`, `C318_set_running_refuted`. Proved if no other thread has a set during a change. Refuted otherwise: only the reader is stopped.
* **C319** The reader always has the handlers to see which sockets changed - partial, `MechProps.v`: `C319_complete`, `C319_blind_refuted`. That handlers are never missing is proved for all uses; refuted: with have_dispatch set over select and no dispatch, the reader asks for a dispatch that nobody does.
* **C320** Setting one I/O handler changes that one only - proved, `MechProps.v`: `C320_set`. 
* **C321** Two changes of mechanism at once leave one of the two - partial, `MechProps.v`: `C321_of_the_two`, `C321_mixed_refuted`. Each handler is of one of the two (proved); the whole may be mixed (refuted): before the reader runs nothing keeps the calls apart.
* **C322** A pipe that was made is two new descriptors - proved, `PipeProps.v`: `C322_made`. 
* **C323** A pipe that could not be made leaves nothing behind - partial, `PipeProps.v`: `C323_failed_partial`, `C323_defined_partial`, `C323_leak_refuted`, `C323_low_leak_refuted`, `C323_getsockname_refuted`. Refuted: the read side is left open when connect or accept fails, a listener with a descriptor up to 2 is left open, and a failure of getsockname is not seen (the check is < -1). Proved: with the standard descriptors open, nothing but the descriptor in descf[0] is left.
* **C324** The two ends of the pipe are of one connection - partial, `PipeProps.v`: `C324_paired_partial`, `C324_guest_refuted`. Refuted: accept takes the first connection waiting, which may be of another program. Proved when no other connects.
* **C325** The descriptor of events is a working one - partial, `PipeProps.v`: `C325_first_partial`, `C325_same`, `C325_dead_refuted`. Refuted: after a call that failed at connect or accept, the next gives the socket that was left. Proved for the first call, and that a descriptor given is given again.
* **C326** Closing the interpreter gives back the descriptors of its pipe - partial, `PipeProps.v`: `C326_returned_partial`, `C326_run`. Proved for processes with stdin, stdout and stderr open; without them see C323_low_leak_refuted.
* **C327** Reading and writing over TLS tell what the transport did - partial, `SslProps.v`: `C327_read_partial`, `C327_write_partial`, `C327_data`. Proved when the error queue of the thread is empty, close_notify did not come before and no other thread uses the object in between; that octets moved are told is proved without these.
* **C328** A TLS connection that fails does not touch the others of its thread - partial, `SslProps.v`: `C328_apart_partial`, `C328_write_refuted`, `C328_handler_refuted`. Refuted: a write that fails in the protocol, or with a failure handler of the user also a read, leaves its entry in the error queue of the thread, and SSL_get_error takes it for the next connection. Proved for reads without such a handler and writes that do not fail so.
* **C329** Reading and writing one TLS connection at once do not mix their results - partial, `SslProps.v`: `C329_blocked_refuted`, `C329_failed_refuted`, `C329_closed_refuted`. Refuted: SSL_get_error is called after the mutex was released, and answers for the last call of any thread.
* **C330** A TLS read that has to wait does not end the connection - partial, `SslProps.v`: `C330_again_partial`, `C330_handler_refuted`. Proved without a failure handler of the user: errno makes up for the wrong result. Refuted with a handler that changes errno.
* **C331** A connection asks for the serverName its options say - partial, `OptsProps.v`: `C331_asked_partial`, `C331_total`, `C331_no_options`, `C331_context_off`, `C331_acquire_off_refuted`, `C331_context_refuted`. Proved when a name is to be asked for and the context allows it. Refuted: VORTEX_SERVERNAME_ACQUIRE with axl_false has no effect, and disabling it in the context also drops the name given.
* **C332** Options that are to be released are released once by the connection created - partial, `OptsProps.v`: `C332_released_partial`, `C332_kept`, `C332_nameinfo_refuted`, `C332_http_refuted`. Proved for all ends but one. Refuted: a failure of getnameinfo leaves them, and connections through a HTTP proxy never release them.
* **C333** Options can be used for several connections - partial, `OptsProps.v`: `C333_reuse`, `C333_free_refuted`. That they stay through any creations is proved; refuted: freed after the call with a handler returned, the thread uses what was freed.
* **C334** vortex_connection_get_host_ip tells the IP of the connection - partial, `HostIpProps.v`: `C334_ipv4_partial`, `C334_ipv6_refuted`, `C334_ipv6_never`. Proved for IPv4. Refuted for IPv6: the address is read as a sockaddr_in, and the flow information is told; no IPv6 address is ever told.
* **C335** The IP returned stays the same string - partial, `HostIpProps.v`: `C335_same_partial`, `C335_set_refuted`. Proved for any calls that ask. Refuted: the internal vortex_connection_set_host_and_port, which nothing in the repository calls, frees the string.
* **C336** Without an address to tell NULL is returned, and nothing is remembered - partial, `HostIpProps.v`: `C336_null`, `C336_retried_partial`, `C336_no_connection_partial`, `C336_no_connection_refuted`. Proved for connections, and for NULL without the log. Refuted: with the log a NULL connection is read before it is compared.
* **C337** A peer that does not read is closed after the write timeout, and not before - partial, `StallProps.v`: `C337_closes`, `C337_before_partial`, `C337_slow_refuted`. Closing is proved for every value. That nothing is given up before is proved when the frame is taken at once; refuted with partial writes, which count as timeouts.
* **C338** With the closing on write timeout disabled timeouts change nothing - partial, `StallProps.v`: `C338_whole_partial`, `C338_blocked`, `C338_counted_refuted`. Proved when the frame is taken at once after any number of timeouts. Refuted: timeouts are counted all the same, and a later partial write gives the frame up.

## Trusted base

* Coq's kernel (8.16.1).  No axiom is declared.  `Print Assumptions` follows
  every property theorem; each prints "Closed under the global context".
* Importing `Lia`/`ZArith` loads library files that contain the module type
  `Coq.ssr.ssrunder`; the checker lists its parameters as library axioms.  No
  theorem depends on them.
* The hand translation from C to Gallina (each definition cites its source).
* Semantics assumed for libc, the socket layer, pthreads and the AXL library.

## Mutation testing

`seeded/LOG.jsonl` has one line per wrong program tried: the model definition
edited, the edit, the claim it breaks, and the theorems that stopped proving.
