# Formal model of tsavola/gate in Rocq (Coq 8.16.1)

The plan was written before the proofs and is kept current as the development
grows.

## Method

* The code in /repo is read as text and modelled function by function as total
  computable Gallina functions (`theories/<Module>.v`).  Every definition cites
  file and lines.  Go panics are explicit error values; nil is an explicit case;
  fixed-width arithmetic is written out with `mod 2^k` wherever wrap-around can
  happen.
* Goroutine code is a transition system: one step per select branch, critical
  section or access to shared memory; all nondeterminism (schedule, reader
  results, crash points, partial writes, random choices) is an argument of the
  step, so theorems quantify over it.  Histories are lists of events of any
  length; theorems about them are proved by induction.
* `theories/<Module>Spec.v` (where the statement needs vocabulary) contains the
  small independent specification.  `theories/<Module>Proofs*.v` has the lemmas.
  `theories/<Module>Props.v` contains the theorems, concrete non-trivial cases
  that meet their hypotheses, and `Print Assumptions`.
* A property that is false of the code is kept with its full statement and
  status "partial": the theorem `..._refuted` gives a witness execution of the
  model (often for every value of the parameters), and `..._partial` theorems
  state what is true of it.  Where the true part is a property of its own, it
  is stated as one ("proved") and the false rest as another.
* Theorems are tested by editing the model the way a bug would change the
  program (`seeded/LOG.jsonl`).  An edit that no theorem noticed led to a
  tighter theorem, or is recorded as equivalent or outside any claim.

## Trusted base

* Coq's kernel (8.16.1), including `vm_compute`.
* `Print Assumptions` prints "Closed under the global context" for every
  theorem in every `*Props.v`: no axioms, neither own nor of the standard
  library.  Libraries used: the standard library only (List, ZArith, Lia, Bool,
  Ascii/String).  (The `ssrunder` constants that a whole-environment listing
  shows come with the ssreflect plugin which Lia's dependencies load; no theorem
  rests on them.)
* That the models say what the code does.  They were transcribed by hand; each
  definition cites the lines it models and says what it leaves out.
* Models of things outside the repository:
  * Go: slices, maps, channels, select, mutexes (sequentially consistent
    interleaving of the steps), `encoding/binary`, `base64`, `sort`, `regexp` for
    the one pattern in use;
  * gate.computer/wag: Varuint32/64 readers, GlobalType encoding, FindCall/
    FindFunc/IsEntryFuncType, the order in which sections are read and
    breakpoints are set;
  * protobuf wire format (Manifest.v);
  * the operating system: what fdatasync makes durable and what a crash may
    lose (Storage.v), partial writes, wait statuses, signals, sockets as queues;
  * credentials, capabilities, mounts, limits, fork and exec, file descriptors (Privs.v, Fds.v);
  * the kernel's BPF interpreter, mmap/mprotect page rounding (Sandbox.v);
  * the semantics of the WebAssembly subset, and the kernel's answers to read, write, ppoll (Wasm.v);
    tools/wat2coq.py, which produced GuestLib.v from library.wat;
  * JSON coding and Ed25519 are parameters of Auth.v's theorems, with the
    hypotheses visible in the statements.

## What is modelled, and what is not

| Files of /repo | Model |
|---|---|
| packet/packet.go, packet/packettest.go | Packet.v |
| packet/packetio/{state,stream,read,write}.go | StreamState.v, ReadStream.v, WriteStream.v |
| internal/varint | Varint.v |
| runtime/io.go | IoLoop.v |
| runtime/service.go, service/registry.go | Registry.v, ServiceLife.v |
| service/grpc/grpc.go | Grpc.v |
| service/grpc/config/config.go: Init, Close; service/grpc/executable/executable.go | GrpcConfig.v |
| cmd/gate/main/repl.go | Repl.v |
| server/monitor/webmonitor/webmonitor.go: checkOrigin, handle | Webmonitor.v |
| cmd/gate-server/main/servercmd.go: main2 | ServerStart.v |
| server/monitorutil.go, gate-server's use of it | EventLog.v |
| image/prepare.go | Prepare.v |
| source/http, source/ipfs, server/source.go, server/upload.go, server/web/content.go; uploading and downloading in server/server.go, server/program.go and image/build.go | Upload.v |
| server/access.go | Access.v |
| origins in server/web/handler.go, request.go, response.go | Cors.v |
| content headers in server/web/request.go, handler.go; cmd/gate-server/main/servercmd.go: 513-586 | Headers.v |
| cmd/gate-runtime/main/runtimecmd.go | RuntimeDaemon.v |
| service/extension.go, internal/services/services.go; settings in servercmd.go, daemoncmd.go | Extensions.v |
| routing in server/web/handler.go | Routes.v |
| cmd/gate-daemon/main/daemoncmd.go: methods' shared state, files, static HTTP handler | Daemon.v |
| cmd/gate/main/remote.go: requests, call loop; local.go: exit status | Client.v |
| cmd/gate/main/remote.go: addresses, authorization | ClientAuth.v |
| cmd/gate/main/local.go, debug.go: calls to the daemon; daemoncmd.go: method table | LocalClient.v |
| cmd/gate/main/local.go: modules through pipes | ImportPipe.v |
| cmd/gate/main/load.go | Download.v |
| cmd/gate/main/debug.go: traceStack, parseBreakpoints | Backtrace.v, BreakArgs.v |
| cmd/gate-server/main/servercmd.go, cmd/gate-daemon/main/daemoncmd.go: exit; server/server.go: Shutdown | Stopping.v |
| errors in server/web/response.go and websocket.go; server/ratelimit.go; error types | WebErrors.v |
| internal/container/{cred,namespace}.go | Creds.v |
| runtime/system/usergroup.go, runtime/group.go, internal/container/cgroup.go: groups of processes | Groups.v |
| internal/container/child, executor.c main, loader.c main: privileges, limits, mounts | Privs.v |
| the same: file descriptors | Fds.v |
| internal/container/parent.go | ContainerStart.v |
| server/web/websocket.go | Websocket.v (websocketReadWriter) |
| service/catalog, service/identity | CallServices.v |
| service/origin/instance.go | Origin.v |
| runtime/executor.go, runtime/executor/executor.c | Executor.v, ExecRing.v |
| runtime/process.go (Serve, Start's limits), loader/*/runtime.S exits, abi/library.wat proc_exit | ExitStatus.v, Limits.v |
| runtime/process.go (Start, getRand), internal/executable/addr.go, loader/loader.c (message, mappings), loader/seccomp.S | Sandbox.v |
| runtime/abi/library.wat (all functions; translated mechanically by tools/wat2coq.py) | GuestLib.v |
| loader/x86_64/runtime.S: rt_read, rt_write, rt_poll, rt_debug, rt_random, rt_stop, rt_time; the subset of WebAssembly that the library uses | Wasm.v |
| runtime/shard.go, runtime/prefork.go | Shard.v |
| runtime/abi/abi.go | AbiResolve.v |
| build/build.go, internal/build | Build.v, Limits.v |
| image/snapshot.go, snapshot/wasm/wasm.go, image/program.go (LoadBuffers) | SnapshotLayout.v, SnapshotSections.v |
| image/stack.go | Stack.v |
| runtime/loader/x86_64/runtime.S (all instructions) | RuntimeAsm.v (generated by tools/asm2coq.py), Asm.v, RuntimeSpec.v, RuntimeSched.v |
| runtime/loader/loader.c (import vector, stack variables), abi/abi.go rtFunctions | Vector.v |
| server/context.go, internal/principal/principalid.go (ContextWithID) | Context.v |
| the kernel, for runtime.S's read, write and ppoll; relation of runtime.S and Wasm.v | RuntimeKernel.v |
| image/{filesystem,instance,program}.go storage, internal/manifest | Storage.v, Manifest.v |
| image/{build,instance,memory,objectmap,snapshot}.go: contents and offsets of files | ImageFiles.v |
| internal/file | FileIo.v |
| server/{server,program,account}.go | Server.v |
| server/instance.go | Lifecycle.v, ExitStatus.v (drive), Breakpoints.v (_debug) |
| server/search.go, internal/manifest/sort.go | Breakpoints.v |
| server/monitor/monitor.go | Monitor.v |
| server/web/{jwt,verify,request,handler}.go, internal/principal, server/database/sql nonces | Auth.v, Query.v |
| scope/scope.go, server/sshkeys | Scope.v |


Trusted about the assembly (C97-C106): the instruction semantics of Asm.v (memory without permissions; an
instruction takes one code address; only ZF and SF<>OF), the parser tools/asm2coq.py, that the C function
clock_gettime obeys the calling convention and doesn't change rbx while a signal can come, that the guest's resume
routine returns to the address on top of the stack, that signal handlers aren't nested.

Not modelled: the compiler (wag) and the generated machine code; the loader's
remaining parts (vDSO lookup, ELF headers); the D-Bus library's encoding of messages; the websocket library and HTTP itself; protobuf encodings of grpc;
the printing of results by the command line programs (their calls and file handling
are modelled); configuration files; logging, and the exact text of errors.

## Properties: what is modelled and how it is proved

* **C01 Packet header fields are independent and round-trip** (proved) — `Packet.v`: packets are byte lists; setters are list updates with Go bounds panics explicit. Round-trip and frame lemmas.  
  `packet_header_writes`, `packet_make_fields`
* **C02 Flow packets carry exactly the increments put into them** (proved) — `Packet.v`: flow entries at 8+8i. Round-trip by little-endian lemma, independence by update/lookup lemma.  
  `flow_packet_history`, `flow_validation_exact`, `data_import_exact`, `flow_packet_single`, `data_packet_history`
* **C03 Splitting a packet divides its buffer** (proved) — `Packet.v`: Split; regions of the two parts.  
  `packet_split_regions`
* **C04 Snapshot varints round-trip and never accept out-of-range values** (proved) — `Varint.v`: Go binary.Uvarint/PutUvarint and the wrapper. Round-trip by strong induction; decoder totality on arbitrary bytes.  
  `varint_roundtrip`, `varint_scan_untrusted`, `varint_scan_rejects`, `varint_len_total_refuted`
* **C05 Stream state survives serialization** (proved) — `StreamState.v`: record codec over Varint. Round-trip, truncation, untrusted input.  
  `stream_state_roundtrip`, `stream_state_untrusted`, `stream_pair_roundtrip`, `stream_state_impossible_rejected`
* **C06 A read stream never sends more than the guest subscribed to** (proved) — `ReadStream.v`: the Transfer loop and the channel side as a micro-step transition system; invariant by induction over events.  
  `read_stream_flow_bound`, `read_stream_packets`
* **C07 A read stream delivers the source bytes in order without loss or duplication** (proved) — Same system with ghost history of bytes read/sent; composition over suspensions through the StreamState codec.  
  `read_stream_no_loss`, `read_stream_no_lost_wakeup`
* **C08 End of input is reported to the program** (partial) — Same system; exact conditions under which EOF is delivered; witness where it is lost.  
  `read_stream_eof_partial`, `read_stream_eof_refuted`, `read_stream_eof_progress`
* **C09 A write stream never overruns its buffer and accepts honest programs** (proved) — `WriteStream.v`: ring buffer with uint32 counters and the subscription counter; invariant by induction.  
  `write_stream_accepts_iff_room`, `write_stream_honest_accepted`, `write_stream_rejected_no_effect`
* **C10 A write stream delivers bytes to the writer in order without loss or duplication** (proved) — Same, ghost history of accepted/written bytes; abstraction of the ring to a queue.  
  `write_stream_in_order`, `write_stream_prefix`, `write_stream_no_lost_wakeup`, `write_stream_close_prompt_refuted`
* **C11 Flow granted to the program never exceeds free buffer space** (proved) — Same invariant.  
  `write_stream_flow_bound`, `write_stream_flow_packets`
* **C12 Suspending a write stream preserves the unwritten bytes** (partial) — Stop path modelled with uint32 arithmetic; refuted for the wrapped ring.  
  `write_stream_suspend_partial`, `write_stream_suspend_open_partial`, `write_stream_suspend_refuted`
* **C13 A restored write stream continues where it left off** (partial) — Restoration modelled; refuted; error return characterised.  
  `write_stream_restore_refuted`, `write_stream_restore_overwrites_refuted`
* **C14 The runtime's packet reader recovers exactly the packets the program wrote** (proved) — `IoLoop.v`: framing of a byte stream, arbitrary fragmentation.  
  `io_reader_packets`, `io_reader_bad_size`, `io_writer_roundtrip`
* **C15 Buffered output packets are re-split correctly on resume** (partial) — `IoLoop.v`: splitBufferedPackets and the frozen output; induction over suspensions.  
  `io_output_preserved_partial`, `io_suspend_cut_partial`, `io_output_cut_refuted`
* **C16 Only validated packets reach a service** (proved) — `IoLoop.v`: handlePacket/checkServicePacket/initMessagePacket as decision functions over byte lists.  
  `io_only_deliverable`, `io_undeliverable_fails`, `io_service_packet`
* **C17 Service discovery answers every request in order and never renumbers a service** (proved) — `Registry.v`: parser of services packets and discoverer state; induction over request histories.  
  `discovery_request`, `discovery_duplicate`, `discovery_limit`, `discovery_only_requests`, `discovery_history`, `discovery_no_panic`
* **C18 Service lookup respects shadowing and clones are isolated** (proved) — `Registry.v`: registry as association list with parent chain.  
  `registry_register`, `registry_isolated`, `registry_parent_unaffected`, `registry_clone`, `registry_lookup_shadowing`, `registry_catalog`
* **C19 Suspension keeps the state of every discovered service** (partial) — `Registry.v`: StartServing/Suspend.  
  `suspend_services_partial`, `restart_services`, `suspend_services_refuted`
* **C20 Origin service never mixes up streams** (proved) — `Origin.v`: transition system of accept/connect/disconnect.  
  `origin_ids_distinct`, `origin_id_routes_to_connection`, `origin_lowest_free_id`, `origin_accept_accounting`, `origin_unanswered_exact`, `origin_no_lost_wakeup`, `origin_stream_kept`
* **C21 Origin service snapshots round-trip** (proved) — `Origin.v`: snapshot codec.  
  `origin_state_roundtrip`, `origin_untrusted_state`
* **C22 Catalog and identity calls are answered exactly once, across suspension** (partial) — `CallServices.v`: transition system of the catalog and identity instances.  
  `calls_answered_once`, `pending_call_saved`, `calls_answered_once_resumed_partial`, `call_answered_twice_refuted`, `call_answered_twice_identity_refuted`, `call_lost_refuted`
* **C23 Snapshot sections written by the image package are readable by the parser** (proved) — `SnapshotSections.v`: emitters and parsers over byte lists; round-trip.  
  `snapshot_section_roundtrip`, `snapshot_reader_untrusted`, `buffer_section_roundtrip`, `buffer_reader_untrusted`, `snapshot_section_negative_result_refuted`, `buffer_reader_allocation_refuted`
* **C24 Snapshot globals and memory sections denote the instance's values** (proved) — `SnapshotSections.v`: SLEB128 encoder against a mathematical decoder.  
  `memory_section_denotes`, `global_section_denotes`, `global_section_empty`, `data_section_denotes`, `stack_section_denotes`, `export_wrap_denotes`
* **C25 Snapshot module layout is consistent** (proved) — `SnapshotLayout.v`: image.Snapshot line by line, offsets and bytes; module as a sequence of sections; induction over histories of snapshots.  
  `snapshot_layout`, `describes_cuts`, `snapshot_chain`, `snapshot_manifest_fields`
* **C26 Exported stacks can be imported back** (proved) — `Stack.v`: exportStack/importStack over byte lists with explicit panics.  
  `stack_export`, `stack_import`, `stack_roundtrip`, `stack_import_sound`
* **C27 Storing an instance or program is crash-atomic and durable** (proved) — `Storage.v`: crash model with volatile/durable file content and directory entries; every crash point of every history.  
  `instance_store_atomic`, `instance_store_durable`, `instance_removal_durable`, `program_store_atomic`, `program_store_durable`
* **C28 An instance's manifest on disk reflects its state once stored** (proved) — `Storage.v`, `Manifest.v`: dirty flag automaton, protobuf wire format.  
  `stored_manifest_current`, `manifest_changes_are_dirty`, `setters_take_effect`, `loaded_manifest_is_stored`, `instance_manifest_fits`, `instance_manifest_roundtrip`
* **C29 Entry function resolution agrees between build time and run time** (partial) — `Limits.v`: both resolvers over an abstract module (exports with signatures).  
  `entry_agree_partial`, `entry_no_crash`, `entry_named_exact`, `entry_start_refuted`, `entry_snapshot_refuted`, `entry_wrapped_refuted`
* **C30 Program reference counting is exact** (partial) — `Server.v`: transition system of reference holders, any number of concurrent requests.  
  `server_exact_partial`, `server_no_crash_partial`, `server_no_leak_partial`, `server_refcount_refuted`
* **C31 Accounts are isolated** (proved) — `Server.v`: what a request of one principal can observe or change.  
  `server_isolated`, `module_access`, `module_supplied`, `instance_access`
* **C32 Instance status machine** (proved) — `Lifecycle.v`: status machine with lock-atomic steps, concurrent requests.  
  `lifecycle_right`, `one_run`, `ended_forever`, `status_shown`
* **C33 Breakpoint configuration has set semantics** (proved) — `Breakpoints.v`: sort/dedup, binary search, union, complement; concurrent requests.  
  `program_breakpoints_valid`, `breakpoints_valid`, `debug_request_exact`, `breakpoint_limit`
* **C34 Process ids are unique and control requests are not lost** (proved) — `Executor.v`: two-sided transition system (Go executor and executor.c table); invariant.  
  `exec_ids_distinct`, `exec_request_reaches`
* **C35 The executor reports every process exit exactly once, in order** (proved) — `ExecRing.v`: send ring with 128 slots; refinement to a queue.  
  `exec_statuses_exact`, `exec_dies_only_send`, `exec_flush`
* **C36 Wait statuses are classified completely** (proved) — `ExitStatus.v`: Serve's decision table over wait statuses.  
  `serve_cases_exact`, `kill_first_exact`
* **C37 Bearer token authentication is sound** (proved) — `Auth.v`: token verification with JSON coding and Ed25519 as parameters of the statement.  
  `auth_exact`, `auth_signed`, `auth_absent`, `auth_made_ed25519`, `auth_made_local`
* **C38 HTTP query parameters are never silently ignored** (partial) — `Query.v`: query multimap consumption by each handler.  
  `query_all_used`, `query_spelled_works`, `query_suspend_ignored_refuted`
* **C39 Scope aliases are unambiguous** (proved) — `Scope.v`: strings as byte lists; the alias pattern's semantics as a function.  
  `match_alias_spec`, `compute_aliases_unambiguous`, `context_contains_exact`
* **C40 SSH authorized keys map each key to one user** (proved) — `Scope.v`: authorized_keys parsing.  
  `sshkeys_first_uid_kept`, `sshkeys_authorized_only`, `sshkeys_authorized_all`, `sshkeys_conflict_rejected`
* **C41 Reference counted files are closed exactly once** (proved) — `FileIo.v`: reference counts; induction over histories.  
  `referenced_file_open`, `unreferenced_file_closed_once`, `fileref_no_panic`
* **C42 Vectored file writes write everything in place** (proved) — `FileIo.v`: oracle list of system call results.  
  `write_at_exact`, `write_vec_exact`, `write_vec_finishes`
* **C43 Process distribution works for any number of prepared executors** (proved) — `Shard.v`: oracle of random choices and readiness.  
  `distribution_exact`, `distribution_member`, `distribution_errors`
* **C44 Server events reach every subscriber in order** (proved) — `Monitor.v`: loop, callers and subscribers as a transition system.  
  `monitor_fanout`, `monitor_counters`
* **C45 Import resolution accepts exactly the supported ABI** (proved) — `AbiResolve.v`: the resolver against a table of supported names and signatures.  
  `import_accepted_exact`, `import_random_exact`
* **C46 Guest time resolution is derived correctly** (proved) — `Limits.v`: the time mask.  
  `time_mask_exact`
* **C47 Packets on their way to the program survive suspension** (partial) — `IoLoop.v`: frozen input; induction over suspensions.  
  `io_input_preserved_partial`, `io_input_single_pending`, `io_input_preserved_refuted`, `io_input_partial_read_refuted`
* **C48 Packets are routed to the discovered service** (proved) — `Registry.v`.  
  `serve_routing`
* **C49 Undiscoverable services stay unavailable** (partial) — `Registry.v`: discovery, suspension and restart.  
  `discover_only_discoverable_partial`, `undiscoverable_refuted`, `undiscoverable_twice_refuted`
* **C50 Suspending a program terminates** (partial) — `CallServices.v`, `Origin.v`: progress and stuck states of the transition systems.  
  `suspend_during_call_refuted`, `suspend_stops_partial`, `origin_suspend_deadlock_refuted`, `origin_suspend_finishes_partial`
* **C51 The connection limit is enforced** (partial) — `Origin.v`.  
  `origin_maxconns_refuted`
* **C52 Only stopped instances are reconfigured for debugging** (partial) — `Breakpoints.v`: rebuild interleaved with resumption.  
  `debug_running_unchanged_partial`, `debug_running_refuted`
* **C53 Prepared processes are neither lost nor leaked** (proved) — `Shard.v`: prefork goroutine.  
  `prepared_accounted`, `prepared_in_order`, `prepared_none_leaked`, `prepared_ends`, `prepare_bufsize`
* **C54 An instance's status follows from how its run ended** (proved) — `ExitStatus.v`: drive.  
  `run_states_exact`
* **C55 A nonce makes a token usable once** (partial) — `Auth.v`: nonce table with two clock readings per request.  
  `auth_nonce_reuse`, `auth_nonce_once_partial`, `auth_nonce_once_refuted`
* **C56 Every authorization header gets an answer** (partial) — `Auth.v`.  
  `auth_crash_exact`, `auth_always_answers_refuted`
* **C57 Principal identities round-trip** (proved) — `Auth.v`: base64 and key parsing.  
  `principal_id_roundtrip`
* **C58 Buffers of a stored program come back after a restart** (partial) — `SnapshotSections.v`: LoadBuffers.  
  `load_buffers_refuted`
* **C59 Importing an untrusted stack never crashes** (partial) — `Stack.v`: importStack on arbitrary bytes.  
  `stack_import_crash_refuted`, `stack_import_entry_crash_refuted`, `stack_import_crash_partial`, `stack_init_refuted`
* **C60 Requests on instances always make sense and never crash** (partial) — `Lifecycle.v`.  
  `lifecycle_crash`, `resume_failed_refuted`, `wait_new_refuted`, `wait_race_refuted`, `debug_gone_refuted`, `resume_function_refuted`
* **C61 A failed storage operation does no harm** (partial) — `Storage.v`: failing system calls as choices.  
  `instance_store_atomic`, `store_retry_refuted`, `store_failure_then_start_refuted`, `begin_retry_refuted`
* **C62 A stored image can be loaded** (partial) — `Storage.v`, `Manifest.v`.  
  `stored_manifest_current`, `program_store_atomic`, `built_instance_store_refuted`, `oversized_manifest_refuted`, `oversized_program_refuted`, `set_after_store_not_stored_refuted`
* **C64 Every program and instance can be snapshotted** (partial) — `SnapshotLayout.v`.  
  `snapshot_layout`, `snapshot_chain`, `snapshot_without_table_refuted`, `snapshot_without_exports_refuted`, `snapshot_of_snapshot_refuted`, `snapshot_init_stack_refuted`, `snapshot_of_wrapped_upload_refuted`
* **C63 Uploaded modules are accepted exactly by the snapshot section grammar** (proved) — `Build.v`: loader table, replaced as a side effect, driven in the order of _buildProgram; iff against a grammar.  
  `upload_accepts_exactly`, `upload_finishes_text_once`, `upload_never_panics`
* **C65 Breakpoints of an accepted snapshot exist** (partial) — `Build.v`.  
  `early_breakpoints_exist_partial`, `breakpoints_exist_refuted`
* **C66 A packet too short to split has an empty second part** (partial) — `Packet.v`.  
  `packet_split_short_is_empty_refuted`
* **C67 Suspending a stream never crashes** (partial) — `ReadStream.v`, `WriteStream.v`, `StreamState.v`.  
  `read_stream_panics_only_on_large_subscription`, `read_stream_suspend_total_refuted`, `stream_state_marshal_total_refuted`, `write_stream_cheater_suspend_refuted`
* **C68 Restored stream data fits in a packet** (partial) — `ReadStream.v`.  
  `read_stream_packet_limit_refuted`
* **C69 A write stream rejects a program that exceeds its grant** (partial) — `WriteStream.v`.  
  `write_stream_cheater_rejected_refuted`
* **C70 No snapshot makes discovery crash** (partial) — `Registry.v`.  
  `discovery_no_panic`, `discovery_snapshot_refuted`
* **C71 Suspending the origin service keeps every live stream** (partial) — `Origin.v`.  
  `origin_streams_kept_in_shutdown_partial`, `origin_suspend_panic_refuted`, `origin_live_stream_lost_refuted`
* **C72 Debug requests never crash the server** (partial) — `Breakpoints.v`.  
  `debug_ordinary_program_refuted`, `debug_no_config_refuted`, `debug_no_panic_partial`
* **C73 A process control request affects only its own process** (partial) — `Executor.v`.  
  `exec_quiet_safe_partial`, `exec_first_safe_partial`, `exec_dies_refuted`, `exec_wrong_kill_refuted`, `exec_wrong_death_refuted`, `exec_cancel_leaks_refuted`
* **C74 The reported ending is what happened** (partial) — `ExitStatus.v`: endings of programs on both architectures against Serve.  
  `ending_reported_partial`, `grow_failure_refuted`, `exit_100_refuted`, `kill_after_suspend_refuted`
* **C75 A scope granted by its full name is contained** (partial) — `Scope.v`.  
  `full_name_granted_partial`, `full_name_granted_refuted`
* **C76 Process distribution never crashes** (partial) — `Shard.v`.  
  `distribution_crash_refuted`, `distribution_no_crash_partial`
* **C77 The monitor never crashes or blocks because of an event or a subscriber** (partial) — `Monitor.v`.  
  `monitor_crash_partial`, `monitor_counted_refuted`, `monitor_unsubscribe_refuted`, `monitor_call_stuck_refuted`, `monitor_subscriber_stuck_refuted`
* **C78 Unsupported imports are rejected without crashing** (partial) — `AbiResolve.v`.  
  `import_crash_refuted`
* **C79 Guest memory limits are derived correctly** (partial) — `Limits.v`: memory limit computations of both paths.  
  `memory_known_partial`, `memory_upload_partial`, `memory_paths_agree_partial`, `memory_policy_refuted`, `memory_truncated_refuted`, `memory_negative_refuted`
* **C80 An instance's status agrees with its image** (partial) — `ExitStatus.v`.  
  `status_agrees_partial`, `status_disagrees_refuted`, `status_unstored_refuted`
* **C81 Principal identities are unique** (partial) — `Auth.v`.  
  `principal_string_unique_refuted`, `principal_account_unique_refuted`
* **C82 A process's memory mappings never collide** (proved) — Sandbox.v: RandAddr, getRand, start_info, loader_mappings; arithmetic over any power-of-two page size.  
  `layout_disjoint`, `layout_total`
* **C83 A program's process can only do I/O, exit, and grow its memory** (proved) — Sandbox.v: seccomp.S as a BPF program run by a model interpreter; case analysis on the number.  
  `seccomp_x86_64_exact`
* **C84 The system call filter is exact on every platform** (partial) — Same model with the AArch64 and Android numbers; witnesses and an exact characterisation.  
  `seccomp_aarch64_exact_partial`, `seccomp_aarch64_refuted`, `seccomp_compat_refuted`, `seccomp_android_refuted`
* **C85 Code cannot be made writable** (proved) — Combination of C82's address bounds and C83's argument bounds.  
  `code_stays_immutable`, `code_is_executable`
* **C86 The loader receives what the runtime sends** (proved) — Sandbox.v: info_bytes and receive_info; decoding of each field at its offset.  
  `info_received`, `start_received`, `start_routine_exact`
* **C87 fd_write on the Gate descriptor sends a prefix and reports its length** (partial) — GuestLib.v is generated from library.wat (tools/wat2coq.py); Wasm.v interprets it with the runtime functions; induction over the vectors with the loop's state as invariant.  
  `fd_write_gate`, `fd_write_other`, `fd_write_success_refuted`, `fd_write_bounds_refuted`
* **C88 Standard output and error go to debug output completely** (proved) — As C87; induction over the kernel's answers.  
  `fd_write_debug`
* **C89 fd_read on the Gate descriptor receives a prefix of the input** (proved) — As C87, with scatter as the specification of memory.  
  `fd_read_gate`, `fd_read_other`
* **C90 The io function waits, then sends, then receives** (proved) — Composition of the wait, the send loop and the receive loop.  
  `io_transfers`
* **C91 poll_oneoff answers subscriptions** (partial) — Induction over the subscriptions; events as a list, stored by put_events.  
  `poll_oneoff_events`, `poll_oneoff_returns_refuted`, `poll_oneoff_type_refuted`
* **C92 random_get never reuses a byte** (proved) — Induction over length + number of resumptions.  
  `random_get_fresh`
* **C93 The environment a program sees is the documented one** (proved) — Symbolic evaluation; the bytes of the stored integers computed.  
  `environ_sizes`, `environ_strings`, `fd_number`
* **C94 Exiting is final** (proved) — Induction over the resumptions.  
  `proc_exit_status`
* **C95 Unsupported operations stop the program** (partial) — Induction over the resumptions; bit reasoning about rights.  
  `fd_close_stops`, `fd_renumber_stops`, `fd_rights_stops`, `clock_time`, `poll_clock_stops`, `proc_raise_stops_refuted`
* **C96 Descriptor information agrees with behaviour** (partial) — Symbolic evaluation, case analysis on the descriptor.  
  `fdstat_get`, `rights_enforced`, `stubs`, `no_args`, `filestat_size_refuted`
* **C97 Reading the clock gives the time and keeps the program's state** (proved) — Asm.v: instruction semantics; RuntimeAsm.v: the instructions, generated from runtime.S.  Symbolic execution, lemmas about little-endian loads and stores, 64-bit arithmetic.  
  `time_given`
* **C98 The guest's monotonic clock never goes backwards** (proved) — Induction over incarnations; monotonicity of masking.  
  `guest_clock_never_goes_back`, `policy_masks`
* **C99 A program's ending is told by the exit status, and its stack and clock are saved** (proved) — Symbolic execution of the exit path with the C function and the resume routine as specified environments; signal frames for faults.  
  `return_exits`, `stack_exhausted_exits`, `trap_code_exits`, `stop_exits`, `fault_exits`
* **C100 Memory grows by exactly what was asked for, within the limit** (partial) — Symbolic execution, case analysis on the comparison and the system call result.  
  `memory_size_given`, `grow_refused`, `grow_granted_partial`, `grow_by_zero`, `grow_failure_status_refuted`
* **C101 The random function gives out each byte once** (proved) — Symbolic execution.  
  `random_given`, `random_exhausted`
* **C102 I/O system calls are confined to the guest's memory** (proved) — Symbolic execution; induction over the sequence of write results for debug output.  
  `io_of_nothing`, `io_out_of_bounds`, `io_within_bounds`, `io_failure_statuses`, `debug_prints_everything`
* **C103 Polling reports the requested conditions** (partial) — Symbolic execution, case analysis on result and conditions.  
  `poll_waits`, `suspended_poll_waits_refuted`
* **C104 A suspend request is never lost** (partial) — RuntimeSched.v: transition relation with signals between any instructions.  RuntimeCheck.v: abstract interpreter over the code, whose soundness is proved (RuntimeCheckProofs.v) and which is run by the kernel; its fixpoint is an invariant of the transition relation (RuntimeSuspendProofs.v).  
  `suspend_signal_effect`, `suspend_request_never_lost_partial`, `suspend_during_clock`, `suspend_in_c_function_refuted`
* **C105 The runtime's code is confined** (proved) — Same invariant.  
  `runtime_is_confined`, `runtime_stores_are_confined`
* **C106 The sandbox is entered before the program runs** (proved) — Symbolic execution of the initialization code with arbitrary system call results.  
  `sandbox_before_program`, `start_without_sandbox`
* **C107 A program's state survives every way of keeping it** (proved) — ImageFiles.v: image files as functions from offsets to bytes, and the operations which write them.  ImageFilesSpec.v: the state that can be read from an image.  Byte-wise reasoning about copied ranges; induction on the history.  
  `build_contents`, `build_instance_contents`, `build_refuses`, `new_instance_state`, `state_survives`, `built_state_survives`, `snapshot_text`
* **C108 Parts of image files don't overlap, and new instances start clean** (proved) — Arithmetic on offsets; the used ranges never reach the variables.  
  `program_layout`, `instance_layout`, `new_instance_vars`
* **C109 The functions that the guest library calls are what the machine code does** (proved) — RuntimeKernel.v: the kernel's answers to the machine code's system calls from the same world as Wasm.v's; a relation between process memory and Wasm.v's states.  Each function by the theorems of C97-C103 and cases of the answers; loops by induction on them.  
  `runtime_implements_calls`
* **C110 A started process finds its functions and parameters** (partial) — Vector.v: the loader's writes and abi.go's table; the layout theorems of C82 give the ranges.  That nop isn't called: the library's code is shown equal (for every state) to code without the calls.  
  `vector_functions_partial`, `vector_nop_refuted`, `nop_never_called`, `loaded_values`, `loaded_process_ready`
* **C111 A request's context tells that request's details** (partial) — Context.v: details as objects in a heap, contexts with pointers, requests' actions interleaved.  ContextSpec.v: what contexts tell, by values.  Simulation of a request alone by the request among others, with renamed pointers.  
  `requests_isolated`, `newest_context_tells`, `principal_told_right`, `event_principal_kept`, `earlier_context_kept_refuted`, `common_context_refuted`
* **C112 A program process has one key with service processes** (proved) — Grpc.v: the table and the instances' phases; steps are critical sections.  Invariant over histories: counts, keys of the table, ownership of keys.  
  `process_has_one_key`, `key_has_one_process`, `key_is_kept_while_used`
* **C113 Messages to and from service processes aren't lost, duplicated or reordered** (partial) — Grpc.v: receiveForward with a list of what the stream returns and a list of choices of the select statement; Handle with results of calls.  Inductions on the lists.  
  `service_messages_arrive_once`, `program_packets_arrive_once_partial`, `canceled_call_duplicates_refuted`, `short_message_crashes_refuted`
* **C114 Service instances are created, started and stopped properly** (partial) — ServiceLife.v: traces of calls, with answers and map orders given by functions.  ServiceLifeSpec.v: automaton of an instance's life.  The trace's automaton state for each code follows the instances map.  
  `instances_live_properly`, `created_instances_are_stopped_partial`, `unavailable_services_get_no_calls`, `failed_start_leaks_instances_refuted`
* **C115 Websocket connections carry the streams and at most one hint** (proved) — Websocket.v: program counters of two goroutines, the mutex, the atomic and the error; reading of frames with an oracle for the websocket library.  An invariant over schedules; a decreasing number of steps.  
  `one_message_at_a_time`, `hint_sent_once`, `writes_sent_in_order`, `websocket_calls_end`, `reads_are_frames`, `reads_get_something`
* **C116 Files created in advance have one owner and don't leak** (partial) — Prepare.v: the goroutine's phases, the channel as a list, callers' receives, in any order.  Invariant: files are a permutation of those given, closed, queued and held.  
  `prepared_file_has_one_owner`, `prepared_files_do_not_leak`, `prepared_calls_return_after_cancel`, `prepare_instances_any_size`, `prepare_programs_size_refuted`
* **C117 Host ids of a container are suitable** (partial) — Creds.v: text of subuid files, ParseInt, the id search, ParseCreds, the id maps.  CredsSpec.v: numerals, lines, usable ids.  The search loop is characterized by least usable id; parsing of a well-formed file by induction on its lines.  
  `container_ids`, `container_ids_distinct`, `container_ids_available`, `namespace_maps`, `container_ids_positive_refuted`, `configured_ids_distinct_refuted`
* **C118 A program's process has no privileges** (partial) — Privs.v: state of a process (ids, capabilities, limits, mounts, attributes), the system calls with their preconditions, the sequences of calls of container, executor and loader; a run takes a list of faults.  A successful required call has its effect, so the final state is a fold, computed for an arbitrary initial state.  The parent's death is a position in the sequence.  
  `program_privileges`, `executor_privileges`, `program_reached`, `parent_death_partial`, `parent_death_refuted`
* **C119 A program's process has no files but its own** (partial) — Fds.v: descriptor tables with lowest-unused allocation, close-on-exec, the descriptor operations of the container, executor (batches of messages) and loader.  Invariant over histories: everything is closed on exec, pending files and pidfds are where they should be, the size of the table is 8 + processes + pending.  
  `program_files`, `executor_files`, `executor_descriptors`, `executor_descriptors_refuted`, `server_files_refuted`
* **C120 A container isn't started before it is configured** (partial) — ContainerStart.v: parent's and child's steps, interleaved by a schedule with failures.  Invariant.  
  `container_configured_partial`, `container_configured_refuted`, `container_killed_with_parent`
* **C121 A downloaded module is the one that was uploaded** (partial) — Upload.v models streams with declared length, decoding, sources, the builder's module buffer, the program table and downloading; hashing, decompression and compilation are parameters.  Invariant over histories of requests (UploadProps.v): each stored module has its hash and size.  Refutations by concrete requests.  
  `module_content_partial`, `module_upload_partial`, `gzip_upload`, `gzip_module_content_refuted`, `websocket_module_content_refuted`, `ipfs_module_content_refuted`, `http_module_content_refuted`, `module_upload_refuted`, `gzip_upload_refuted`
* **C122 The module size limit is enforced** (proved) — Upload.v, UploadProps.v: invariant on sizes for arbitrary requests; the stream's close count is part of the model.  
  `module_size_limit`, `module_stream_closed`, `module_upload_effect`, `module_upload_content`
* **C123 Module sources keep to the size limit and the contract** (partial) — Upload.v, UploadProps.v: case analysis over all responses, with header parsing results as data.  
  `http_source`, `http_source_found`, `ipfs_source`, `source_not_found`, `http_too_long_refuted`, `ipfs_length_refuted`
* **C124 Requests from foreign web sites aren't served** (partial) — Cors.v, CorsProps.v: trimming and splitting modelled on character lists; words are specified independently (names), and strings.Fields is proved to yield exactly those.  
  `foreign_requests_rejected`, `allowed_requests_served`, `local_handler_checks_origins`, `all_origins_checked_refuted`
* **C125 Clients aren't told private details of errors** (partial) — WebErrors.v, WebErrorsProps.v: an error is what its interfaces tell; the type switch in order.  Noninterference between errors with equal public parts.  
  `private_details_hidden`, `error_status`, `any_error`, `error_reported`, `retry_after_positive`, `retry_after_suffices_refuted`, `websocket_error_partial`, `websocket_error_refuted`
* **C126 Access policies deny or limit by default** (partial) — Access.v, AccessProps.v: policies composed with the upload model.  
  `public_access_limits`, `no_access`, `public_access_module_size`, `resource_policy_refuted`
* **C127 Requests reach what their paths name** (proved) — Routes.v, RoutesProps.v: ServeMux's registration and longest-prefix matching on strings; `names` specifies independently what each path names, and the most specific name is proved to decide.  
  `requests_reach_what_they_name`, `instances_reached`, `known_modules_reached`, `sources_order_irrelevant`
* **C128 Safe methods are safe** (partial) — Routes.v on top of Query.v: the method switches; case analysis over all targets, methods and queries.  
  `get_requests_only_read`, `head_is_get`, `other_methods_do_nothing`, `unsupported_methods_rejected`, `allowed_methods_work`, `allowed_methods_listed_refuted`
* **C129 A daemon call runs with the scope it asked for** (partial) — Daemon.v, DaemonProps.v: interleaving semantics of the D-Bus methods' shared variables, with Scope.v's contexts; invariant of the call's context while others leave the variable alone; refutations by schedules (for every n for the growth).  
  `daemon_scope_partial`, `daemon_scope_refuted`, `daemon_context_bounded_refuted`
* **C130 Calls made while the daemon starts are served** (partial) — Daemon.v, DaemonProps.v: the same model, with the channel; that the second call waits is proved for every continuation without shutdown.  
  `daemon_first_call_partial`, `daemon_serves_partial`, `daemon_early_calls_refuted`
* **C131 Files passed to the daemon are closed exactly once** (partial) — Daemon.v, DaemonProps.v: closed files as multisets (permutations) over histories of an instance, and over all outcomes of a call.  
  `call_files_closed`, `call_files_closed_partial`, `call_files_closed_refuted`, `debug_logs_closed_partial`, `debug_logs_closed_refuted`
* **C132 The daemon's static files are confined** (proved) — Daemon.v, DaemonProps.v: path elements are specified independently of the prefix arithmetic.  
  `static_files_confined`
* **C133 Client commands do on the server what they say** (partial) — Client.v, ClientProps.v: the client's requests are composed with the server's routing (Routes.v) and parameter handling (Query.v) and the content checks; purposes are an inductive relation from commands to operations; proved by cases over commands with queries as unions of parameter lists, for all flags and tags.  
  `arguments_unambiguous`, `remote_commands_do_what_they_say`, `remote_launch_from_source_refuted`, `remote_debug_refuted`, `remote_update_refuted`, `remote_repairs`, `client_recognizes_success`
* **C134 The client tells how a call ended** (partial) — Client.v, ClientProps.v: the client's message loop over the messages which Websocket.v's server model sends; induction on the messages.  
  `call_tells_everything`, `call_tells_everything_refuted`, `call_repair`, `remote_call_success`, `call_exit_is_result`, `same_exit_refuted`
* **C135 The client's key authorizes its requests** (partial) — ClientAuth.v, ClientAuthProps.v: net/url's parsing and printing on byte lists, for the characters of plain addresses; addresses and identities are specified as concatenations; the token's acceptance follows from Auth's theorems; the converse from the uniqueness of a token's claims.  
  `client_reaches_server`, `client_audience`, `client_audience_refuted`, `client_authorized`, `client_unauthorized`, `client_authorized_refuted`, `client_local`, `client_local_authorized`
* **C136 The local client asks the daemon what its commands say** (partial) — LocalClient.v models every local command as the D-Bus calls it makes (name, typed values, types of the variables for the reply) and the daemon's method table as a typed dispatch to server operations; proved against a relation that says for each command what it is for. The dispatch is tied to the list of the Go signatures (methods_typed). D-Bus itself is modelled as exact matching of names and types.  
  `local_commands_do_what_they_say`, `local_meaning_unambiguous`, `local_given_up`, `methods_typed`, `local_debug_refuted`, `local_debug_repair`
* **C137 A module that is handed over through a pipe arrives, and the command ends** (partial) — ImportPipe.v: a transition system of the client's writing goroutine, the pipe, the daemon's reading and the garbage collector; an invariant, a decreasing measure, and progress give termination for pull; for import the invariant that the write end is open gives the refutation.  
  `reply_after_everything`, `pipe_bounded`, `pull_ends`, `import_file_ends`, `import_ends_refuted`, `import_ends_partial`
* **C138 Exporting a module into a file is all or nothing** (partial) — Download.v: the function as steps with the environment's choices (failures, the announced length, pieces of data); a crash is the end of the list of choices. An invariant over all lists relates destination, temporary file and output to the data so far. Left out: machine crashes (there is no fsync), symbolic links, other processes in the directory.  
  `export_all_or_nothing`, `export_to_device`, `export_to_stdout`, `export_can_succeed`, `export_get_failure_clean`, `export_failure_clean_refuted`, `export_mode_refuted`
* **C139 Programs stop after their instances have stopped** (partial) — Stopping.v: two transition systems with the shutdown procedure in common; invariants over all interleavings (what has been waited for has stopped); the refutations are runs for every list of instances; the repair is the same system whose main goroutine waits.  
  `server_keeps_running`, `stop_time_limit`, `daemon_stop`, `daemon_stop_progress`, `server_stop_repair`, `server_stop_refuted`, `exits_stopped_refuted`, `daemon_stop_refuted`
* **C140 A backtrace shows the program's call stack** (partial) — Backtrace.v transcribes traceStack over Stack.v's code maps; by induction on StackSpec's valid frames it computes the relation `shown`, which speaks of frames and their variables as lists of words; composed with C26's export theorem.  
  `backtrace_shows`, `backtrace_end_to_end`, `backtrace_unique`
* **C141 Breakpoints are set where the arguments say** (partial) — BreakArgs.v: the argument parser on character lists, including path normalization and suffix matching, the sorted line tables and the binary search; proved equal to a relation between arguments and offsets, with paths as component lists; the file order is universally quantified.  
  `breakpoints_exact`, `breakpoints_fail`, `breakpoints_no_info`
* **C142 Programs with access to the system run in their users' control groups** (proved) — Groups.v: functions from the authorization (Scope.v's Authorize) through the user id's parsing and the slice's path to the request and clone3's argument; the slice is specified by canonical numerals (CredsSpec.v), and formatting is proved canonical and injective.  
  `process_group`, `process_group_made`, `process_group_refused`, `public_group`, `group_executor`, `slices_distinct`
* **C143 Requests are admitted, and answered, according to their content headers** (partial) — Headers.v: the header checks as functions of lists of values, each method handler's sequence of checks, and the front handler; list elements, stripped text and media types are specified by decompositions and the checks proved equal to them.  
  `accept_exact`, `admitted_exactly`, `refused_why`, `response_acceptable_partial`, `response_unacceptable_refuted`, `update_content`, `error_text`, `weight_refuted`, `case_refuted`, `trailers_exact`, `front_api`, `front_plain`, `front_other`
* **C144 Every instance has the built-in services, and extensions cannot take their names or settings** (proved) — Extensions.v over Registry.v's heap of registries: the settings map as a fold with deletions, initialization and the instances' registries; exact characterizations by induction over the extensions and the history of instances.  
  `config_exact`, `settings_exact`, `started_exactly`, `instances_services`
* **C145 The runtime daemon keeps its clients apart and nothing of them open** (proved) — RuntimeDaemon.v: the clients' goroutines as step functions over logs of openings and closings, interleaved; an invariant gives the whole log for each program counter, from which soundness of closing, the open descriptors and the connection's holders follow.  
  `descriptors`, `descriptors_bounded`, `connection`, `client_progress`, `clients_independent`, `listens_exactly`
* **C146 Nothing remains of gRPC services whose initialization fails, and closing releases all** (partial) — GrpcConfig.v: Execute, Conf.Init and Close as logs of acquisitions and releases by attempt, with each failing operation; configuration text through Cors.v's strings.Fields.  An invariant (what each attempt holds) gives the resource theorems; success, order and kept connections are characterized exactly by induction over the lists.  
  `resources_sound`, `failed_init_releases`, `error_releases`, `init_holds`, `close_releases`, `close_error`, `init_succeeds`, `init_order`, `init_conns`, `lines_logged`, `malformed_is_an_error_refuted`, `close_terminates_refuted`, `output_logged_refuted`
* **C147 The interactive client sends each line and shows all output** (partial) — Repl.v: websocketConn.Read over messages in pieces, the printing loop and the typing loop as total functions; exact characterizations by induction over pieces and lines.  
  `printed_exactly`, `printed_prefix`, `all_output_shown_refuted`, `single_message_shown`, `lines_sent`, `input_ends_refuted`, `input_ends`
* **C148 The monitor page is shown only to the configured origins, and shows every event** (partial) — Webmonitor.v: checkOrigin and handle as functions of the inputs (items, slowness, end, the client's going) and of the outcome of each write; exact output by induction over the inputs.  
  `monitor_origins`, `no_origins`, `monitor_frames`, `monitor_cleanup`, `monitor_rejected`, `gone_is_noticed_refuted`
* **C149 The server serves exactly if its configuration is valid, after everything else, and closes what it has opened** (partial) — ServerStart.v: main2 as a program of operations that may fail, requirements and deferred calls, computed from the configuration; a run is characterized for every program, and validity and order follow from the program's shape; the page's origins compose with Webmonitor.v's check.  
  `starts_exactly`, `serving_last`, `start_closes`, `page_exactly`, `page_restricted_refuted`, `no_requests_with_capabilities_refuted`, `serving_can_store_refuted`
* **C150 Each event is logged exactly once where it belongs** (partial) — EventLog.v: monitors as functions from an event to what each sink gets; what each sink has got of a history is proved equal to a filter of the history.  
  `server_logs`, `default_logs`, `combined`, `failures_logged_refuted`

## Findings

Witnesses of the starred ones are theorems (`..._refuted`); the others were
noticed while modelling.

* packet/packetio/read.go: end of input is lost when the reader ends while data is pending *; suspension panics for an outstanding subscription of 2^31 or more *; a restored state of more than MaxSendSize-16 bytes is sent in an oversized packet *, on which runtime/io.go:309-312 panics.
* packet/packetio/write.go: a program exceeding its grant is not detected while the buffer has room *; its suspension then panics *; a wrapped ring is saved with 2^32-size extra zero bytes *; a restored stream fails with "subscription overflow" *; positions are not restored *.
* runtime/io.go: suspension with a partly written packet fails *; pending packets are frozen without padding *; input is padded wrongly if the program read a number of bytes not divisible by 8 *; splitBufferedPackets wraps at 4 GB.
* runtime/service.go: a snapshot with more than 256 services crashes the server at the next request *.
* service/registry.go: a stale state is saved again when the service returns an empty one *; undiscoverable services become available through suspension *; the same requested twice makes resumption fail *.
* service/catalog, identity: a suspension waits for ever if a reply is in flight *; a call is answered twice after two suspensions *; calls after cancellation are lost *.
* service/origin/instance.go: shutdown deadlocks with a reply in flight *; restored live streams are dropped by the next suspension *; MaxConns is not consulted *; live streams of gone connections keep their ids.
* server/instance.go _debug, image/program.go: debug requests on ordinary programs, without configuration, or on annihilated instances crash the server *; a rebuild is applied to a running instance *.
* runtime/shard.go:106: removes by channel index: crash *.
* server/monitor/monitor.go: the first counted event crashes *; double close on unsubscription *; two ways to block for ever *.
* runtime/abi/abi.go: fd_allocate and malformed fd_/io_ numbers crash *.
* build/build.go: alignMemorySize rounds up, limits are truncated to 32 bits, negative limits become huge *; gate.snapshot accepted after the code section, with breakpoints unset and unchecked *; BindFunctions' fix of section offsets gives absent sections negative ones.
* entry functions: upload and known-module paths disagree in three cases *.
* x86-64 runtime.S: failure to grow memory reported as success *; exit code 100 is success *; kill after suspend is forgotten *; image marks disagree with the status after internal failures *.
* runtime/executor.go: ids are reused while requests for the old process are queued: executor dies, wrong process killed, wrong status delivered *; cancelled creations leak ids *.
* server/web: the suspend action is accepted and ignored *; a missing return in handlePostModuleSource.
* server/web/jwt.go: EdDSA header without jwk crashes *; nonce replay at a second boundary *; four principal strings per key *; the local principal is the all-zero key's *.
* scope/scope.go: alias of "a--" shadows a registered "--" *.
* image/program.go LoadBuffers: never returns the buffers; server start-up fails *.
* image/stack.go: truncated untrusted stacks crash the server *; stacks of unstarted instances are not importable *.
* image/snapshot.go: crashes without table or export section *; fails on a just-created snapshot *; corrupts uploaded wrapped modules *; claims a stack for unstarted instances *.
* image storage: built instances are stored without manifest *; setters after Store are lost *; oversized manifests never load *; retries after failed fdatasync or unlink break atomicity *.
* server/server.go: double release of a program when an instance fails to start *; a failed resume leaves an instance running for ever and its information crashing *; Wait can return NONEXISTENT or RUNNING *; the function of ResumeInstance is ignored *; Snapshot suspends before authorizing; instances are not restored at start-up.
* runtime/abi/library.wat: fd_filestat_get stores 32 bits of the size.
* runtime/loader/seccomp.S: on AArch64 io_cancel (on Android io_setup) is allowed because of a wrong jump offset *; the architecture of a call is not checked, so 32-bit chmod and utimes are allowed on x86-64 *; Android's mremap size check is vacuous *.
* library.wat fd_write: an empty write on the Gate descriptor, or to standard output, returns EAGAIN (C87).
* runtime.S io_prologue: the memory size is computed with 32 bits; a 4 GiB memory has size zero and all I/O is out of bounds (C87).
* library.wat poll_oneoff: blocks in rt_poll although other subscriptions are ready; no event type for bad descriptors (C91).
* library.wat proc_raise returns success when the program is resumed (C95).
* library.wat fd_filestat_get stores four bytes of the eight-byte size (C96).
* runtime.S grow_memory: the exit status after a failed mprotect is the low byte of a page-aligned address, i.e. zero (C100).
* runtime.S rt_poll: a suspend request that comes just before ppoll doesn't prevent waiting; there is no timeout or signal mask (C103).
* runtime.S signal_handler: uses the interrupted rbx; if the signal comes while the vDSO's clock_gettime has changed rbx, a wrong word is modified and the request is lost (C104).
* abi.go rtFunctions binds the library's import nop to slot -5, where the loader puts the growth limit; rt_nop is at -18 (C110; harmless, as the library never comes to call it).
* server/context.go: ContextWithOp, ContextWithRequestAddr, ContextWithIface and detachedContext modify the details of the context that they are given (unless its principal changed): reported events change afterwards, an instance's start removes the address from its request's context, and requests whose base context has details (ContextWithIface) tell authorizers each other's operation (C111).
* service/grpc: mustBePacket reports a short message but goes on; SetCode panics in its goroutine if there are less than 6 bytes, which crashes the server (C113).
* service/grpc Handle: a call which is canceled after it was effective leaves the packet also in the snapshot (C113).
* service/registry.go StartServing: if a restored service fails, the instances created before it are never shut down; with grpc services, the process key and the remote instance leak (C114).
* image/prepare.go PreparePrograms: a buffer size of zero or less panics, whereas PrepareInstances corrects it (C116).
* Container ids (C117): subuid lines with negative numbers are accepted ("user:-1:9" makes the container's user the host's root);
  explicitly configured ids aren't checked against each other.
* Parent death (C118): setreuid cancels PR_SET_PDEATHSIG, and the check "os.Getppid() == 1" can't succeed in a new pid namespace
  (the parent's id is 0 there), so a container whose parent dies during setup is not killed.
* Descriptors (C119): recvmmsg opens the files of up to 128 requests at once, but the executor's RLIMIT_NOFILE allows for one
  request; near the maximal number of processes a batch of five requests is fatal (MSG_CTRUNC or a failing clone).  Descriptors
  which the server inherited without close-on-exec end up in the programs' processes.
* Configuration (C120): the container takes the pipe's end for the go-ahead, also when the parent has been killed.
- Modules which are uploaded with `Content-Encoding: gzip` are stored with the length of the encoded content: the image's module size is the capacity of the buffer, which is the declared length.  If the module is shorter, it is padded with zeros, and what is downloaded doesn't have the hash that it's named by (`gzip_module_content_refuted`); if longer, it's rejected (`gzip_upload_refuted`).  The same happens when a websocket client, or a source, declares a too great length (`websocket_module_content_refuted`, `ipfs_module_content_refuted`, `http_module_content_refuted`).
- Because the known module's size is compared before its hash, a user who has uploaded a module with a wrong length prevents all others from uploading it (`module_upload_refuted`).
- An HTTP source that gets a part of the requested range reports the module as too long (`http_too_long_refuted`); an IPFS source accepts negative lengths (`ipfs_length_refuted`).
- Only the first Origin header is checked (`all_origins_checked_refuted`).
- Retry-After is rounded down (`retry_after_suffices_refuted`); long public error texts make websocket close messages disappear (`websocket_error_refuted`).
- Resource policies aren't enforced (`resource_policy_refuted`).
- The Allow header never lists GET and HEAD, and lacks POST for the list of instances (`allowed_methods_listed_refuted`).
- The daemon's D-Bus methods assign to a shared context variable: a program can run with a concurrent call's scope (`daemon_scope_refuted`), and the context grows with each call (`daemon_context_bounded_refuted`).
- Of two D-Bus calls made while the daemon starts, one hangs until shutdown (`daemon_early_calls_refuted`).
- The debug log given for an instance created in suspended state is leaked when the instance is resumed (`debug_logs_closed_refuted`); a module passed as a pipe isn't closed (`call_files_closed_refuted`).
- The client's remote `launch /ipfs/...` sends PUT, which isn't supported (`remote_launch_from_source_refuted`); remote `debug` sends protobuf where JSON is expected (`remote_debug_refuted`); remote `update` sends an unknown field (`remote_update_refuted`).
- The client's remote call of a local file stops at the server's input hint, losing the rest of the output and the status (`call_tells_everything_refuted`).  Local and remote calls' exit statuses differ (`same_exit_refuted`).
- The client with a key can't use the address form host:port without a scheme, nor an address which ends with a slash: the token's audience is wrong (`client_authorized_refuted`, `client_audience_refuted`).
- C136: the client's debug commands backtrace, dumptext, and break/delete with functions' names or lines never work: debug.go:322 calls the daemon's
  method "Download", which doesn't exist (it is "DownloadModule").  They also ask the local daemon when the instance is on a remote server.
- C137: `gate import` of something else than a regular file (e.g. /dev/stdin) writes the data into a pipe whose write end nobody closes, and the daemon
  reads until the end of the stream: the command hangs until a garbage collection happens to close the file (local.go:171-180; pull closes it).
- C138: an export that fails after its temporary file was made (disk full, connection lost, wrong length) leaves the file `.*.wasm` in the directory:
  check calls log.Fatal, which exits without running the deferred os.Remove (load.go:50-59).  A successful one replaces the mode of an existing file with 0600.
- C139: when an executor dies, gate-server's watcher shuts the HTTP server down, whereupon main's Serve returns ErrServerClosed at once and critLog.Fatal
  exits: requests are cut off and no instance is suspended or stored (servercmd.go:242, 434-463, 510; net/http says to wait for Shutdown to return).
  gate-daemon's deferred Shutdown uses the D-Bus connection's context: if the bus has gone, it exits without waiting (daemoncmd.go:168, 196).
- C143: a request for debugging and one for the plain features are answered with JSON even if the client doesn't accept it; "application/json;q=0" counts
  as acceptance; media types are compared case-sensitively (`response_unacceptable_refuted`, `weight_refuted`, `case_refuted`; server/web/request.go:17-115).
- C146: a blank gRPC command or target in the configuration, or a command consisting only of `@path`, crashes the server (`args[0]`, `args[1:]`); executable.Conn.Close signals the process only if closing the connection failed, otherwise it waits for as long as the process likes; a process's output after its last newline isn't logged.
- C147: `gate repl` over a websocket shows only the first message of the instance's output: websocketConn.Read returns the io.EOF of a message's reader to its caller, which stops reading (cmd/gate/main/repl.go:82-88, 39-44); and the end of the user's input isn't passed on before the output has ended (65).
- C148: the monitor's connections are never read, so the close handler that should end the subscription isn't called when a client goes away (webmonitor.go:103-107).
- C149: gate-server serves the monitor page and ACME's HTTP requests before it clears its capabilities (servercmd.go:264-267, 496-499, 502); image.programstorage or instancestorage "filesystem" with an empty image.vardir gives a nil *Filesystem instead of an error (295-324); without monitor.http.origins the monitor page accepts all origins unless its address starts with "localhost:" (251-253).

