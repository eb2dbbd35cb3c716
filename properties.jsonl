{"id": "C01", "title": "Packet header fields are independent and round-trip", "statement": "After writing size, code, domain and index into a packet with the packet API, each accessor returns exactly the value last written, writing one field never changes another field, and nothing past the header is touched.", "quantifier": "every packet content of at least header length, every size/code/domain/index value, every order of writes", "why_tests_cant": "The field layout is byte-level; tests sample a handful of values while aliasing errors show only for particular bit patterns.", "anchors": ["packet/packet.go: Buf.SetSize, Buf.EncodedSize, Buf.SetCode, Buf.Code, Buf.SetIndex, Buf.Index, Buf.Domain, Make"]}
{"id": "C02", "title": "Flow packets carry exactly the increments put into them", "statement": "A flow packet with n entries reports n entries; reading entry i returns the (stream id, increment) last stored at i, for every i, unaffected by stores at other positions; IsFlow packets built by the API are always accepted by the packet validity checks.", "quantifier": "every number of entries, every assignment of stream ids and increments in int32", "why_tests_cant": "Index arithmetic over an arbitrary number of entries cannot be exhausted by examples.", "anchors": ["packet/packet.go: MakeFlow, MakeFlows, FlowBuf.Num, FlowBuf.At, FlowBuf.Set", "packet/packettest.go"]}
{"id": "C03", "title": "Splitting a packet divides its buffer", "statement": "Splitting a packet buffer at any prefix length from the header size up yields a first part that is exactly that many leading bytes, and a second part that is exactly the bytes from the next multiple of eight on, with its first bytes replaced by a copy of the header if it is long enough to hold one.", "quantifier": "every packet, header size and prefix length allowed by the API", "why_tests_cant": "Boundary lengths (0, header size, whole packet, capacity) interact; off-by-one errors only show at exact lengths.", "anchors": ["packet/packet.go: Buf.Split, Buf.Cut, DataBuf.Split, Align"]}
{"id": "C04", "title": "Snapshot varints round-trip and never accept out-of-range values", "statement": "Encoding any non-negative 31-bit integer uses the announced number of bytes (at most 5), decoding it back from any buffer that starts with it returns the value and exactly the remaining bytes, and decoding never returns a value above 2^31-1 nor reads past the buffer.", "quantifier": "every value 0..2^31-1, every trailing bytes, every arbitrary (untrusted) input buffer", "why_tests_cant": "The decoder runs on untrusted snapshot bytes: the claim ranges over all byte strings.", "anchors": ["internal/varint/varint.go: Scan, Len, Put"]}
{"id": "C05", "title": "Stream state survives serialization", "statement": "For every stream state whose subscription fits in 31 bits, the announced marshaled size equals the number of bytes written, and unmarshaling from a buffer that starts with those bytes gives back the same flags, subscription and buffered data and leaves exactly the trailing bytes; data longer than the configured maximum and input truncated at any point are rejected with an error; no byte string crashes unmarshaling, and what it accepts is within the configured maximum and consistent.", "quantifier": "every state, every trailing buffer, every configured maximum, every truncation point", "why_tests_cant": "All truncation points of all encodings is an infinite set and the input is untrusted.", "anchors": ["packet/packetio/state.go: State.MarshaledSize, State.Marshal, State.Unmarshal"]}
{"id": "C06", "title": "A read stream never sends more than the guest subscribed to", "statement": "At every point of every execution the total number of data bytes a ReadStream has sent to the program is at most the total flow the program has granted; no empty data packet is sent except as the final EOF mark; and no packet exceeds the maximum send size, provided a restored state holds no more data than fits in one packet.", "quantifier": "every interleaving of subscriptions, reader results (short reads, errors), channel readiness, cancellation and suspension", "why_tests_cant": "Depends on interleaving of three asynchronous parties.", "anchors": ["packet/packetio/read.go: ReadStream.Subscribe, ReadStream.FinishSubscription, ReadStream.Transfer"]}
{"id": "C07", "title": "A read stream delivers the source bytes in order without loss or duplication", "statement": "The concatenation of the data sent so far followed by the data still buffered in the stream state is always exactly the sequence of bytes obtained from the reader; this continues across any number of suspensions in which the state is marshaled and restored.", "quantifier": "every schedule, every number of suspend/resume cycles", "why_tests_cant": "Needs an invariant over all schedules and suspension points.", "anchors": ["packet/packetio/read.go: ReadStream.Transfer", "packet/packetio/state.go"]}
{"id": "C08", "title": "End of input is reported to the program", "statement": "When the reader of a ReadStream ends, the program eventually receives the EOF packet after all data, in every execution in which the stream runs to completion.", "quantifier": "every schedule and every way the reader can end (n=0 EOF, n>0 with EOF, error, finished subscription, cancellation)", "why_tests_cant": "The failing paths depend on which select branch fires and on what the reader returned together with the data.", "anchors": ["packet/packetio/read.go: ReadStream.Transfer"]}
{"id": "C09", "title": "A write stream never overruns its buffer and accepts honest programs", "statement": "Exactly those writes are accepted for which the buffer has room, so unconsumed bytes are never overwritten; if the program sends at most what it was granted, every write is accepted; a rejected write has no effect.", "quantifier": "every sequence of writes of every length, every consumption schedule, every buffer size", "why_tests_cant": "Ring-buffer wrap-around positions and lengths combine without bound.", "anchors": ["packet/packetio/write.go: WriteStream.Write, WriteStream.Transfer"]}
{"id": "C10", "title": "A write stream delivers bytes to the writer in order without loss or duplication", "statement": "The bytes handed to the io.Writer followed by the bytes still in the buffer are always exactly the bytes the program wrote, in order, including after the ring wraps.", "quantifier": "every interleaving of program writes and writer progress (including short writes)", "why_tests_cant": "Requires an invariant over all interleavings and wrap positions.", "anchors": ["packet/packetio/write.go: WriteStream.Write, WriteStream.Transfer"]}
{"id": "C11", "title": "Flow granted to the program never exceeds free buffer space", "statement": "At every point, the flow announced to the program but not yet used plus the bytes in the buffer is at most buffer size minus one.", "quantifier": "every schedule", "why_tests_cant": "Announcements are asynchronous to writes; only an invariant covers all orders.", "anchors": ["packet/packetio/write.go: WriteStream.Transfer"]}
{"id": "C12", "title": "Suspending a write stream preserves the unwritten bytes", "statement": "When a WriteStream's transfer is stopped, the state that is marshaled contains exactly the bytes accepted from the program and not yet written, in order.", "quantifier": "every reachable ring position at which the transfer stops", "why_tests_cant": "The stop code path has different arithmetic for wrapped and unwrapped rings.", "anchors": ["packet/packetio/write.go: WriteStream.Transfer"]}
{"id": "C13", "title": "A restored write stream continues where it left off", "statement": "After unmarshaling a suspended WriteStream's state, the transfer writes the buffered bytes first and continues to accept and deliver program data.", "quantifier": "every marshaled state and every later schedule", "why_tests_cant": "Combines serialization with the transfer's own checks on restored state.", "anchors": ["packet/packetio/write.go: WriteStream.Unmarshal, WriteStream.Transfer", "packet/packetio/stream.go"]}
{"id": "C14", "title": "The runtime's packet reader recovers exactly the packets the program wrote", "statement": "For any sequence of well-formed packets (each padded to 8 bytes) the read loop yields those packets with padding removed, regardless of how the pipe fragments the bytes; a header announcing a size below 8 or above the maximum is reported as an error and no packet is produced from it.", "quantifier": "every packet sequence, every fragmentation", "why_tests_cant": "Fragmentation points and packet lengths are unbounded; the program is untrusted.", "anchors": ["runtime/io.go: subjectReadLoop, subjectWriteLoop"]}
{"id": "C15", "title": "Buffered output packets are re-split correctly on resume", "statement": "When a program is resumed, the buffered output bytes of its snapshot are split back into exactly the packets that had been received but not handled, plus the partial packet at the end, and reading continues at the right byte.", "quantifier": "every snapshot buffer produced by a suspension", "why_tests_cant": "The partial packet can be cut at any byte.", "anchors": ["runtime/io.go: splitBufferedPackets, subjectReadLoop, ioLoop"]}
{"id": "C16", "title": "Only validated packets reach a service", "statement": "A packet from the program is delivered to service code c only if c is a discovered service index, its domain is one of call/info/flow/data and its length is valid for the domain; anything else terminates the program with an error.", "quantifier": "every byte string the program can write, every number of discovered services", "why_tests_cant": "Untrusted input: all byte strings.", "anchors": ["runtime/io.go: handlePacket, checkServicePacket, initMessagePacket", "runtime/service.go: handleServicesPacket"]}
{"id": "C17", "title": "Service discovery answers every request in order and never renumbers a service", "statement": "For a program with at most 256 services: a services request with n names appends n services in order; the reply lists the state of all services discovered so far in index order; earlier indices keep their names and states; a program never gets more than 256 services (further names are ignored); empty names, names longer than 127 bytes and services requested twice are errors; no request packet crashes the server.", "quantifier": "every request packet and every history of requests", "why_tests_cant": "Histories of requests are unbounded and the packet is untrusted.", "anchors": ["runtime/service.go: handleServicesPacket, makeServicesPacket", "service/registry.go: (*discoverer).Discover"]}
{"id": "C18", "title": "Service lookup respects shadowing and clones are isolated", "statement": "Looking up a name in a registry yields its own service of that name, or else what its parent's lookup yields; registering succeeds exactly if the name and revision are valid and (unless replacing) the registry itself does not have the name; a registration in a clone never changes its parent's lookups; the catalog lists each discoverable service that lookup finds exactly once.", "quantifier": "every registry history and requested name", "why_tests_cant": "Ranges over all registration histories and clone trees.", "anchors": ["service/registry.go: Registry.Register, Registry.Clone, Registry.lookup, Registry.Catalog"]}
{"id": "C19", "title": "Suspension keeps the state of every discovered service", "statement": "The service list returned by suspension contains each discovered service, in index order, with the buffer its instance returned when it was shut down; on restart each instance is created with exactly that buffer.", "quantifier": "every set of services, every suspend/resume history", "why_tests_cant": "Requires following the same service over an unbounded number of suspensions.", "anchors": ["service/registry.go: StartServing, (*discoverer).Suspend, serve"]}
{"id": "C20", "title": "Origin service never mixes up streams", "statement": "At any time the stream ids in use by the origin service are pairwise distinct, and each open connection has an id of its own that routes to it; a new connection gets the lowest unused id; accept calls are answered by one reply each, one at a time; a waiting connection is never left waiting while an accept call could be answered; a stream stays until its own connection ends.", "quantifier": "every history of accept calls, connections and disconnections", "why_tests_cant": "Unbounded histories.", "anchors": ["service/origin/instance.go", "service/origin/connector.go"]}
{"id": "C21", "title": "Origin service snapshots round-trip", "statement": "The number of pending accepts and the state of each open stream restored from an origin service's snapshot are exactly those it was made of; malformed snapshots are rejected without crashing.", "quantifier": "every set of streams with every state, every byte string as snapshot", "why_tests_cant": "All states and all malformed inputs.", "anchors": ["service/origin/instance.go: Suspend, restore"]}
{"id": "C22", "title": "Catalog and identity calls are answered exactly once, across suspension", "statement": "Every call made to the catalog/identity service is answered by exactly one reply, also if the instance is suspended and resumed between the call and the reply.", "quantifier": "every schedule of calls, replies and suspension points", "why_tests_cant": "Suspension may hit between any two steps.", "anchors": ["service/catalog/catalog.go", "service/identity/identity.go"]}
{"id": "C23", "title": "Snapshot sections written by the image package are readable by the parser", "statement": "The snapshot custom section emitted for an instance (non-negative trap and result, at most 100 breakpoints) is parsed back by the snapshot reader to the same flags, trap, result, monotonic time and breakpoints; the buffer section (service names of 1 to 127 bytes, sizes below 2^31, section below 2^32 bytes) is a custom section of the announced size that loads back to the same input, output, service names and service buffers; on arbitrary section contents both readers never crash and accept only values within the announced widths and data within the section.", "quantifier": "every snapshot content and every buffer set within the format's limits; every byte string as untrusted section content", "why_tests_cant": "All values of variable-length encodings, including sign and width boundaries.", "anchors": ["image/snapshot.go: makeSnapshotSection, makeBufferSectionHeader", "snapshot/wasm/wasm.go: ReadSnapshotSection, ReadBufferSectionHeader"]}
{"id": "C24", "title": "Snapshot globals and memory sections denote the instance's values", "statement": "The global section of a snapshot consists of valid constant initializers that evaluate to the instance's current global values, and the memory section states the instance's current and maximum memory.", "quantifier": "every list of global types and 64-bit values, every memory size", "why_tests_cant": "The signed LEB128 encoder has to be right for all 2^64 values.", "anchors": ["image/snapshot.go: makeGlobalSection, putVarint, makeMemorySection"]}
{"id": "C25", "title": "Snapshot module layout is consistent", "statement": "Taking a snapshot of an instance of a program that has a table and an export section and whose manifest describes its module (as after an upload of a plain module or a load from storage) produces a module of exactly the announced size; every section range in the new manifest delimits exactly that section; type, import, function, table, export, element, code and trailing custom sections are copied unchanged in order; the start section is dropped; the export section is wrapped in a gate.export section if and only if the instance is suspended or final; the memory, data, global, snapshot, buffer and stack sections denote the instance's state.  The same holds along every history of snapshots of snapshots, each loaded from storage.", "quantifier": "every combination of present/absent sections and sizes, every instance state within the format's limits, every finite history of snapshots", "why_tests_cant": "2^12 combinations of optional sections times all sizes and all histories.", "anchors": ["image/snapshot.go: Snapshot, mapOldSection, mapNewSection"]}
{"id": "C26", "title": "Exported stacks can be imported back", "statement": "Every valid call stack of a suspended instance is exported as its portable form, and importing it into the same module at any text address restores the same stack with the new addresses. Whatever bytes an uploaded stack section contains, if they are accepted then the result is the native form of some valid stack of the module: every return address is that of a call site, every frame has the size its call site requires and room for the callee's arguments, and the entry function has an entry function type.", "quantifier": "every module, stack depth and content, text address, and every untrusted stack section", "why_tests_cant": "Stack depth unbounded; the section is untrusted user input.", "anchors": ["image/stack.go: exportStack, importStack", "server/program.go"]}
{"id": "C27", "title": "Storing an instance or program is crash-atomic and durable", "statement": "As long as no fdatasync or unlink call fails: after a crash at any point, loading by name finds either nothing (or what was there before) or the complete object handed to the latest store call, with its manifest and content. Once storing has succeeded the object is found after any crash until it is unstored or started; once it has been unstored or started, no crash brings the old version back.", "quantifier": "every history of storing, unstoring, mutation, closing, loading and crashing, every crash point and every choice of unsynced writes and directory entries that are lost", "why_tests_cant": "Crash points between system calls and lost page-cache writes are not exercised by tests.", "anchors": ["image/filesystem.go: storeProgram, storeInstance, LoadInstance, loadProgram, marshalManifest, unmarshalManifest", "image/instance.go: Store, Unstore, BeginMutation"]}
{"id": "C28", "title": "An instance's manifest on disk reflects its state once stored", "statement": "For an instance created by NewInstance or loaded from storage: after Store succeeds the stored manifest equals the in-memory manifest, whatever was changed before; every mutator marks the manifest dirty; a loaded instance has the same manifest (trap, result, breakpoints, stack usage...) and content as the stored one; the manifest always fits in its area and survives its encoding.", "quantifier": "every history of mutations, stores, crashes and loads", "why_tests_cant": "History dependent (dirty flag).", "anchors": ["image/instance.go: Store, CheckMutation, SetTrap, SetResult, SetFinal, SetDebugInfo, SetBreakpoints", "image/filesystem.go: marshalManifest, unmarshalManifest, LoadInstance", "internal/manifest/manifest.proto: Instance"]}
{"id": "C29", "title": "Entry function resolution agrees between build time and run time", "statement": "For every module and requested function name, launching by name while the module is uploaded and launching the already known module either both succeed with the same function or both fail; the launched function is the named one (or _start), has a suitable type, and the lookup never crashes the server.", "quantifier": "every export table, every requested name", "why_tests_cant": "Two independent implementations must agree on all inputs.", "anchors": ["image/program.go: Program.ResolveEntryFunc", "internal/build/resolve.go: ResolveEntryFunc"]}
{"id": "C30", "title": "Program reference counting is exact", "statement": "A program's image is closed exactly when no account, instance or in-flight request refers to it, and never earlier; reference counts never become negative.", "quantifier": "every interleaving of uploads, pins, unpins, instance creations, failures and deletions", "why_tests_cant": "Error paths and races between requests; a premature close shows only under specific interleavings.", "anchors": ["server/program.go: program.ref, program.unref", "server/server.go: mergeProgramRef, unrefProgram, runOrDeleteInstance"]}
{"id": "C31", "title": "Accounts are isolated", "statement": "A principal can read, download, unpin or launch a module only if it has it pinned (or supplied its content whose hash matches), and can see or control an instance only if the instance belongs to it.", "quantifier": "every history of operations by any number of principals", "why_tests_cant": "Requires tracking ownership over unbounded multi-user histories.", "anchors": ["server/server.go", "server/account.go"]}
{"id": "C32", "title": "Instance status machine", "statement": "An instance is never driven by two runs at once; it is resumed only when suspended (without a function) or halted (with a function); a killed or terminated instance never runs again; it is deleted only when stopped; the status shown is that of the latest run, a resumable instance is in storage, and waiting for a run returns when it has ended, with the status at that time (if a running status is returned, the client has gone away or the instance was resumed meanwhile).", "quantifier": "every interleaving of kill, suspend, resume, delete, snapshot, wait and process completion", "why_tests_cant": "Interleavings.", "anchors": ["server/instance.go: Instance.Kill, Instance.Suspend, checkResume, doResume, drive, trapStatus"]}
{"id": "C33", "title": "Breakpoint configuration has set semantics", "statement": "After any history of concurrent debug requests the instance's breakpoint list is strictly increasing and has at most 100 entries; a set/union/complement request that succeeds produces exactly the set, the union or the difference of the offsets at that moment and the given ones; a failed one changes nothing.", "quantifier": "every list of 64-bit offsets, every history of debug requests", "why_tests_cant": "Sorted-merge and binary search boundaries for all inputs.", "anchors": ["server/instance.go: _debug", "server/search.go: searchUint64", "internal/manifest/sort.go: SortDedupUint64"]}
{"id": "C34", "title": "Process ids are unique and control requests are not lost", "statement": "A process id is never held by two processes at once, held ids are not available ones, and every id is available or held while the executor is up; while a process is in the executor's table, the kill or suspend request that was made for it is being queued, queued, on the wire, or has been signalled to it.", "quantifier": "every interleaving of process creation, termination, kill, suspend and the executor's sender/receiver", "why_tests_cant": "Needs all interleavings of two queues and a remote process.", "anchors": ["runtime/executor.go: execute, killSuspend, finalize, sender, receiver", "runtime/executor/executor.c: receive_ops, wait_process"]}
{"id": "C35", "title": "The executor reports every process exit exactly once, in order", "statement": "The status ring of the executor never overflows: each reaped process's status is sent exactly once and in reaping order, for every pattern of partial sends.", "quantifier": "every sequence of process exits, polls and (partial, blocking or would-block) sends", "why_tests_cant": "Ring full/wrap conditions under partial sends.", "anchors": ["runtime/executor/executor.c: send_queued, wait_process, executor"]}
{"id": "C36", "title": "Wait statuses are classified completely", "statement": "Every wait status is mapped to exactly one of: program result with its value and kind, a particular trap, killed, suspended, or internal error; exit codes 0-3 and 100 are results unless the process was asked to be killed, codes 101-127 the traps 1-27, SIGXCPU a suspension, and SIGKILL or an ending that yields to a kill request is killed exactly if a kill was requested; a kill request made first prevails.", "quantifier": "all wait statuses (2^32) and kill/suspend request states", "why_tests_cant": "Complete decision table over all statuses.", "anchors": ["runtime/process.go: Process.Serve", "runtime/executor.go: execProcess.killSuspend, killRequested", "runtime/loader/x86_64/runtime.S", "runtime/abi/library.wat: proc_exit"]}
{"id": "C37", "title": "Bearer token authentication is sound", "statement": "A request is attributed to a principal (with a scope) exactly when it has a single Authorization header carrying a bearer token whose three parts decode, whose header names an Ed25519 key under which the signature of the received header and payload text verifies, which expires between now and 15 minutes ahead, whose audience is absent or includes this server, whose nonce (if any) is accepted, and whose scope has at most ten words; unsigned tokens are accepted only in local mode, as the local principal. Tokens made by the client library's token makers meet this.", "quantifier": "every header string, claims, time and key", "why_tests_cant": "Decision over all token shapes; a missing check is only visible for adversarial inputs.", "anchors": ["server/web/jwt.go", "server/web/verify.go"]}
{"id": "C38", "title": "HTTP query parameters are never silently ignored", "statement": "Every request handler executes an action only if each query parameter is part of the documented spelling of that action; unknown, duplicate or contradictory parameters cause an error response and no action (except that repeating an instance action is harmless). Every documented spelling is executed, with its parameters in any order (that of tags being kept).", "quantifier": "every multiset of query parameters for each endpoint", "why_tests_cant": "All combinations of parameters.", "anchors": ["server/web/handler.go: handleGetKnownModule, handlePutKnownModule, handlePostKnownModule, handlePostInstance", "server/web/request.go"]}
{"id": "C39", "title": "Scope aliases are unambiguous", "statement": "An alias resolves to a scope only if exactly one registered scope has that alias, whatever the order of registration; what a context contains is exactly the scopes that the granted names and aliases resolve to.", "quantifier": "every set and order of registered scopes and every granted list", "why_tests_cant": "All sets of strings.", "anchors": ["scope/scope.go: ComputeAliases, Resolve, Context, ContextContains"]}
{"id": "C40", "title": "SSH authorized keys map each key to one user", "statement": "After any sequence of parsed files, a principal is authorized exactly if its key occurs in a parsed file, with the uid of that file; a key listed for two uids is rejected and keeps its first uid.", "quantifier": "every sequence of files and keys", "why_tests_cant": "Histories of parses including failing ones.", "anchors": ["server/sshkeys/authorized_keys.go: Parse, Authorize"]}
{"id": "C41", "title": "Reference counted files are closed exactly once", "statement": "A shared file descriptor is closed exactly when its last reference is dropped, is open as long as any reference exists, and is never closed twice.", "quantifier": "every sequence of Own, Ref, Unref operations on any number of files", "why_tests_cant": "Histories.", "anchors": ["internal/file/fileref.go: Own, Ref, MustRef, Unref"]}
{"id": "C42", "title": "Vectored file writes write everything in place", "statement": "WriteVecAt writes the concatenation of its two buffers at consecutive offsets exactly once, regardless of how many bytes each system call accepts, and returns nil only then.", "quantifier": "every pair of buffers, every sequence of partial write counts and interruptions", "why_tests_cant": "Partial writes are up to the kernel.", "anchors": ["internal/file/file.go: WriteVecAt, WriteAt"]}
{"id": "C43", "title": "Process distribution works for any number of prepared executors", "statement": "Requesting a process from a group of n prepared-process channels tries at most n members without waiting, as long as they are empty, and then waits for the first one tried; the outcome is what the last one tried gave: the process received from that member, the closed-channel error or the context's error - or the crash of C76; at most one process is received, and it is the one returned.", "quantifier": "every number of channels, every readiness pattern and random choice", "why_tests_cant": "Random choices and readiness patterns.", "anchors": ["runtime/shard.go: chanSharder.NewProcess"]}
{"id": "C44", "title": "Server events reach every subscriber in order", "statement": "While the monitor runs, the events accepted are delivered in order to every live subscriber from its subscription on, none is skipped or repeated, a subscriber that is cut off has got a prefix; and the counters count exactly the events of each kind.", "quantifier": "every sequence of events and subscriptions", "why_tests_cant": "Histories.", "anchors": ["server/monitor/monitor.go: New, loop, update"]}
{"id": "C45", "title": "Import resolution accepts exactly the supported ABI", "statement": "A module's function imports are accepted exactly if they name a function (gate, WASI except fd_allocate, or their env aliases) with the right signature; and random data is requested exactly if an accepted import needs it.", "quantifier": "every module name, field name and signature", "why_tests_cant": "Untrusted strings.", "anchors": ["runtime/abi/abi.go: ImportResolver.ResolveFunc"]}
{"id": "C46", "title": "Guest time resolution is derived correctly", "statement": "The times a program sees are multiples of the smallest power of two (in nanoseconds) above the configured resolution, rounded down, the resolution being one second if it is unset or coarser than that.", "quantifier": "every resolution and time", "why_tests_cant": "Integer boundary cases over full ranges.", "anchors": ["runtime/process.go: Start"]}
{"id": "C47", "title": "Packets on their way to the program survive suspension", "statement": "If an instance is suspended and resumed, the program reads exactly the bytes it would have read without the suspension: packets already written to it but not yet read, and packets pending in the runtime, in order, correctly framed.", "quantifier": "every set of pending packets and every number of bytes the program has read", "why_tests_cant": "Suspension may happen between any two bytes; tests exercise a few points.", "anchors": ["runtime/io.go: ioLoop, subjectWriteLoop", "runtime/process.go: Serve"]}
{"id": "C48", "title": "Packets are routed to the discovered service", "statement": "Each available service of a program has at most one instance, created by the factory found at discovery with the saved state of that service, and it is handed exactly the packets the program sent to that index, in order.", "quantifier": "every history of discovery requests and packets", "why_tests_cant": "Histories of requests and packets are unbounded.", "anchors": ["service/registry.go: StartServing, serve"]}
{"id": "C49", "title": "Undiscoverable services stay unavailable", "statement": "A service which is not discoverable in the context of the program is never made available to it.", "quantifier": "every registry, request history and suspension", "why_tests_cant": "The hole shows only in combination with suspension or uploaded snapshots.", "anchors": ["service/registry.go: Discover, StartServing"]}
{"id": "C50", "title": "Suspending a program terminates", "statement": "Once the program has stopped and the runtime has saved its buffers, suspension of the services completes without further input from outside.", "quantifier": "every point at which the program is suspended", "why_tests_cant": "The blocking schedule needs a reply in flight at the moment of suspension.", "anchors": ["runtime/io.go: ioLoop", "service/registry.go: serve, Suspend", "service/catalog/catalog.go: handleCall"]}
{"id": "C51", "title": "The connection limit is enforced", "statement": "A program never has more simultaneous origin connections than the configured maximum.", "quantifier": "every configuration and history of connections", "why_tests_cant": "Histories are unbounded.", "anchors": ["service/origin/connector.go: Config.MaxConns", "service/origin/instance.go: connect"]}
{"id": "C52", "title": "Only stopped instances are reconfigured for debugging", "statement": "A debug request never changes the configuration or the program image of a running instance.", "quantifier": "every interleaving of debug requests, runs and stops", "why_tests_cant": "The program is rebuilt without holding the lock, so the interleavings are unbounded.", "anchors": ["server/instance.go: _debug, instanceRebuild.apply", "server/server.go: DebugInstance"]}
{"id": "C53", "title": "Prepared processes are neither lost nor leaked", "statement": "Every process prepared in advance is delivered to exactly one requester, in the order of creation, or killed after the preparation context is cancelled; none is killed before that, at most the configured number wait, and after cancellation the preparation can always end.", "quantifier": "every interleaving of the preparation loop, requesters and cancellation; every buffer size", "why_tests_cant": "Unbounded interleavings.", "anchors": ["runtime/prefork.go: PrepareProcesses, ProcessChan.NewProcess"]}
{"id": "C54", "title": "An instance's status follows from how its run ended", "statement": "When a run ends without a runtime error, the instance's state is determined by the program's result or trap, whether the instance is transient, and whether its state was consistent and could be stored, as documented; it is never left running.", "quantifier": "every ending, transient or not, every failure of state checking and storing", "why_tests_cant": "Combinations of endings and internal failures; errors there need fault injection.", "anchors": ["server/instance.go: drive, startOrAnnihilate, trapStatus", "image/instance.go: SetFinal, SetTrap, SetResult, CheckMutation"]}
{"id": "C55", "title": "A nonce makes a token usable once", "statement": "A signed token that carries a nonce is accepted at most once by servers that share nonce storage: another token of the same key with the same nonce is accepted only after the first one has expired.", "quantifier": "every history of requests and nondecreasing clock readings, with the sql nonce table", "why_tests_cant": "Replay windows exist only for particular interleavings of the clock with the expiration and nonce checks.", "anchors": ["server/web/verify.go mustVerifyNonce", "server/web/verify.go mustVerifyExpiration", "server/database/sql/sql.go CheckNonce"]}
{"id": "C56", "title": "Every authorization header gets an answer", "statement": "Whatever an Authorization header contains, the request is accepted, refused or treated as anonymous; parsing does not crash.", "quantifier": "every header value and every decoded token", "why_tests_cant": "A crash needs one particular malformed shape among all token shapes.", "anchors": ["server/web/jwt.go mustParseJWTHeader", "server/web/jwt.go mustParseJWT"]}
{"id": "C57", "title": "Principal identities round-trip", "statement": "A principal string parses back to the same principal, and every principal's string denotes its key.", "quantifier": "every encoded key and principal string", "why_tests_cant": "Encodings that collide are rare points in the input space.", "anchors": ["internal/principal/principalkey.go ParseEd25519Key", "internal/principal/principalid.go ParseID", "internal/principal/principalid.go LocalID", "server/server.go accounts"]}
{"id": "C58", "title": "Buffers of a stored program come back after a restart", "statement": "Loading the buffers of a stored program yields the buffers that were in the module when it was stored.", "quantifier": "every buffer set, module position and recorded header length", "why_tests_cant": "Needs a restart of a server with a stored snapshot that has buffers; all sizes.", "anchors": ["image/program.go: LoadBuffers", "build/build.go: InstallSnapshotDataLoaders", "image/snapshot.go: makeBufferSectionHeader", "server/server.go: _loadProgramDuringInit"]}
{"id": "C59", "title": "Importing an untrusted stack never crashes", "statement": "Importing an arbitrary byte string as a stack never crashes the server: it yields a valid stack or an error; and the stack in every snapshot made by the server, including one made before the program was started, is accepted back by the module it is in.", "quantifier": "every byte string, every module", "why_tests_cant": "The section is untrusted user input of any length and content.", "anchors": ["image/stack.go: importStack, putInitStack", "image/build.go: Build.FinishText"]}
{"id": "C60", "title": "Requests on instances always make sense and never crash", "statement": "Waiting returns the status of the run that was waited for; a resumption that fails leaves a usable instance; the function given when resuming is called; no interleaving of requests crashes the server.", "quantifier": "every interleaving of launch, kill, suspend, resume, delete, snapshot, wait, debug and process completion", "why_tests_cant": "Interleavings and failures of process creation.", "anchors": ["server/instance.go: startOrAnnihilate, Wait, _debug, _doResume", "server/server.go: ResumeInstance"]}
{"id": "C61", "title": "A failed storage operation does no harm", "statement": "After a system call has failed during storing, unstoring or starting an instance, retrying is safe: a later success means what it says, and no partly mutated instance can be found under a name after a crash.", "quantifier": "every failing call and every later history", "why_tests_cant": "Needs injected I/O errors followed by retries and crashes.", "anchors": ["image/filesystem.go: storeInstance", "image/instance.go: Unstore, BeginMutation"]}
{"id": "C62", "title": "A stored image can be loaded", "statement": "Whenever storing reports success, the stored image can be loaded and is the image that was stored, however it was made and however large its manifest is; changes made later can be stored.", "quantifier": "every instance and program, every manifest", "why_tests_cant": "Depends on how the image was built and on unbounded manifest content.", "anchors": ["image/build.go: FinishInstance", "image/filesystem.go: marshalManifest, unmarshalManifest", "image/instance.go: Store"]}
{"id": "C64", "title": "Every program and instance can be snapshotted", "statement": "A snapshot can be taken of an instance of any accepted program - with or without table or export section, uploaded in wrapped form, itself just created as a snapshot - and the resulting program can be instantiated and resumed.", "quantifier": "every accepted program, every instance state", "why_tests_cant": "The failing programs are outside the test modules, which all come from compilers that emit tables and exports.", "anchors": ["image/snapshot.go: Snapshot", "image/build.go: FinishProgram", "server/server.go: Snapshot"]}
{"id": "C63", "title": "Uploaded modules are accepted exactly by the snapshot section grammar", "statement": "An uploaded module, as a sequence of sections, is accepted if and only if: standard sections are in order; gate.snapshot occurs at most once and before gate.export, gate.buffer and gate.stack; gate.export directly precedes, and exactly spans, the export section, and no entry function is requested with it; gate.buffer and gate.stack occur at most once each, in this order, after the code section and before the data section; the stack fits the granted stack size, is importable, and no entry function is selected with it; breakpoints of a gate.snapshot section before the code section are at instructions.  Accepted modules have their text finished exactly once, and no module crashes the loader.", "quantifier": "every sequence of standard and custom sections, every policy and request", "why_tests_cant": "Orders and repetitions of sections are unbounded; loaders replace each other as a side effect of being called.", "anchors": ["build/build.go: InstallEarlySnapshotLoaders, BindFunctions, CodeConfig, VerifyBreakpoints, InstallSnapshotDataLoaders, FinishImageText, InstallLateSnapshotLoaders", "server/program.go: _buildProgram"]}
{"id": "C65", "title": "Breakpoints of an accepted snapshot exist", "statement": "If an uploaded snapshot module is accepted, every breakpoint listed in its gate.snapshot section has been set at an instruction of its code.", "quantifier": "every uploaded module", "why_tests_cant": "The failing modules put the gate.snapshot section where no tool puts it.", "anchors": ["build/build.go: CodeConfig, VerifyBreakpoints, InstallSnapshotDataLoaders"]}
{"id": "C66", "title": "A packet too short to split has an empty second part", "statement": "If the packet is too short to be split at the prefix length, the second part is a buffer of zero length, as documented.", "quantifier": "every packet, header size and prefix length", "why_tests_cant": "The case depends on the relation of length, header size and prefix.", "anchors": ["packet/packet.go: Buf.Split, Buf.Cut, DataBuf.Split, Align"]}
{"id": "C67", "title": "Suspending a stream never crashes", "statement": "Whatever the program has done on its streams - including subscribing to any number of bytes and sending more than it was granted - suspending the program marshals the stream states without crashing.", "quantifier": "every history of a read or write stream", "why_tests_cant": "The failing histories need 2 GB of subscriptions or a malicious program.", "anchors": ["packet/packetio/state.go: State.MarshaledSize, State.Marshal, State.Unmarshal", "packet/packetio/read.go: ReadStream", "packet/packetio/write.go: WriteStream"]}
{"id": "C68", "title": "Restored stream data fits in a packet", "statement": "Whatever stream state unmarshaling accepts, the packets sent from it do not exceed the maximum send size.", "quantifier": "every accepted state", "why_tests_cant": "The boundary is 16 bytes below the checked limit.", "anchors": ["packet/packetio/read.go: ReadStream.Subscribe, ReadStream.FinishSubscription, ReadStream.Transfer", "packet/packetio/state.go: State.MarshaledSize, State.Marshal, State.Unmarshal"]}
{"id": "C69", "title": "A write stream rejects a program that exceeds its grant", "statement": "If the program sends more than it was granted, the write returns an error and nothing is stored.", "quantifier": "every history of a write stream", "why_tests_cant": "Needs a malicious program with the buffer partly empty.", "anchors": ["packet/packetio/write.go: WriteStream.Write, WriteStream.Transfer"]}
{"id": "C70", "title": "No snapshot makes discovery crash", "statement": "Whatever services an uploaded snapshot lists, the resumed program's service requests do not crash the server.", "quantifier": "every snapshot", "why_tests_cant": "Needs a crafted snapshot with more than 256 services.", "anchors": ["runtime/service.go: handleServicesPacket, makeServicesPacket", "service/registry.go: (*discoverer).Discover"]}
{"id": "C71", "title": "Suspending the origin service keeps every live stream", "statement": "After any history, suspension of the origin service succeeds and the saved state contains every stream the program has open.", "quantifier": "every history of connections, calls, suspensions and resumptions", "why_tests_cant": "Needs a particular schedule or a large subscription.", "anchors": ["service/origin/instance.go: Suspend, restore"]}
{"id": "C72", "title": "Debug requests never crash the server", "statement": "Whatever the program, the instance and the debug request, the request is answered; it does not crash.", "quantifier": "every debug request", "why_tests_cant": "Needs requests that the bundled client does not make.", "anchors": ["server/instance.go: _debug", "image/program.go: Breakpoints"]}
{"id": "C73", "title": "A process control request affects only its own process", "statement": "Killing, suspending or finalizing a process never kills another process, never brings down the executor and never gives another process's exit status; ids of cancelled creations are reused.", "quantifier": "every interleaving of process creation, termination, kill, suspend and the executor's sender/receiver", "why_tests_cant": "Needs an id to be reused within the time a control message is queued.", "anchors": ["runtime/executor.go: execute, killSuspend, finalize, sender, receiver", "runtime/executor/executor.c: receive_ops, wait_process"]}
{"id": "C74", "title": "The reported ending is what happened", "statement": "What the program did (returned, exited with a status, trapped, ran out of stack, failed to grow memory, failed in the runtime) is what is reported, and a process that was asked to be killed is reported killed.", "quantifier": "every ending, architecture and request state", "why_tests_cant": "Endings are encoded in assembly and C, decoded in Go.", "anchors": ["runtime/process.go: Process.Serve", "runtime/executor.go: execProcess.killSuspend, killRequested", "runtime/loader/x86_64/runtime.S", "runtime/abi/library.wat: proc_exit"]}
{"id": "C75", "title": "A scope granted by its full name is contained", "statement": "A context to which a registered scope has been granted by its full name contains that scope.", "quantifier": "every set and order of registered scopes and every granted list", "why_tests_cant": "Needs odd scope names.", "anchors": ["scope/scope.go: ComputeAliases, Resolve, Context, ContextContains"]}
{"id": "C76", "title": "Process distribution never crashes", "statement": "Requesting a process from a group of any number of prepared-process channels does not crash.", "quantifier": "every number of channels, every readiness pattern and random choice", "why_tests_cant": "Depends on random choices while all channels are empty.", "anchors": ["runtime/shard.go: chanSharder.NewProcess"]}
{"id": "C77", "title": "The monitor never crashes or blocks because of an event or a subscriber", "statement": "Delivering any server event, subscribing and unsubscribing never crashes the server and never blocks for ever.", "quantifier": "every sequence of events and subscriptions", "why_tests_cant": "Needs a full subscriber buffer or a particular schedule.", "anchors": ["server/monitor/monitor.go: New, loop, update"]}
{"id": "C78", "title": "Unsupported imports are rejected without crashing", "statement": "Every import that is not accepted is rejected with an error; no import crashes the server, and every WASI function in the table is accepted.", "quantifier": "every module name, field name and signature", "why_tests_cant": "Needs names that no compiler emits, or a WASI function not in use.", "anchors": ["runtime/abi/abi.go: ImportResolver.ResolveFunc"]}
{"id": "C79", "title": "Guest memory limits are derived correctly", "statement": "The memory limit of an instance is never above the program's or the policy's limit, never below the program's initial memory, and the same whether the instance is created while its module is uploaded or from a known module.", "quantifier": "every program memory limit and policy limit", "why_tests_cant": "Boundaries of page size and integer width.", "anchors": ["image/instance.go: maxInstanceMemory", "build/build.go: SetMaxMemorySize, alignMemorySize"]}
{"id": "C80", "title": "An instance's status agrees with its image", "statement": "After a run the status that would be derived from the instance's image is the instance's status.", "quantifier": "every ending, transient or not, every failure of state checking and storing", "why_tests_cant": "Combinations of endings and internal failures; errors there need fault injection.", "anchors": ["server/instance.go: drive, startOrAnnihilate, trapStatus", "image/instance.go: SetFinal, SetTrap, SetResult, CheckMutation"]}
{"id": "C81", "title": "Principal identities are unique", "statement": "One key has one principal string, and different principals have different accounts.", "quantifier": "every encoded key and principal string", "why_tests_cant": "Encodings that collide are rare points in the input space.", "anchors": ["internal/principal/principalkey.go ParseEd25519Key", "internal/principal/principalid.go ParseID", "internal/principal/principalid.go LocalID", "server/server.go accounts"]}
{"id": "C82", "title": "A process's memory mappings never collide", "statement": "For every program and whatever random bytes the system delivers: the runtime, the program's code, its stack, and its globals and memory are mapped at disjoint pages of the user address space, and nothing accessible but the program's own globals and memory lies within 8 GB of the start of its linear memory (globals of at most a page).", "quantifier": "every program with 32-bit sizes, every page size, every random input, fixed or random text address", "why_tests_cant": "Addresses are random: a collision would occur with negligible probability in a test.", "anchors": ["runtime/process.go: Start, getRand", "internal/executable/addr.go: RandAddr", "runtime/loader/loader.c: main"]}
{"id": "C83", "title": "A program's process can only do I/O, exit, and grow its memory", "statement": "On x86-64, the system call filter of a program's process allows exactly reading, writing, polling, closing, returning from a signal handler, exiting, and making less than 4 GB of memory at the heap addresses readable and writable; any other call kills the process.", "quantifier": "every system call number and arguments (native calls)", "why_tests_cant": "The number space and argument space are 2^31 x 2^384; jumps of the filter are relative offsets.", "anchors": ["runtime/loader/seccomp.S"]}
{"id": "C84", "title": "The system call filter is exact on every platform", "statement": "As C83, for AArch64 and Android too, and also for calls made in another mode than the native one.", "quantifier": "every system call number, architecture mode and arguments", "why_tests_cant": "As C83.", "anchors": ["runtime/loader/seccomp.S"]}
{"id": "C85", "title": "Code cannot be made writable", "statement": "No system call that the filter allows changes the protection of the runtime's or the program's code pages, wherever they are mapped.", "quantifier": "every program, randomness, page size and permitted call", "why_tests_cant": "Needs the address ranges, the filter and page rounding together for all values.", "anchors": ["runtime/loader/seccomp.S", "internal/executable/addr.go", "runtime/loader/loader.c: main"]}
{"id": "C86", "title": "The loader receives what the runtime sends", "statement": "The parameters of a process (sizes, addresses, random data, clock parameters) arrive at the loader as they were; an instance that has not run is entered at its start and entry functions, a suspended one is resumed with its stack as it was left.", "quantifier": "every program state, mask and randomness", "why_tests_cant": "Two languages describe the same message; field orders and widths must agree for all values.", "anchors": ["runtime/process.go: imageInfo, Start", "runtime/loader/loader.c: struct image_info, receive_info, main"]}
{"id": "C87", "title": "fd_write on the Gate descriptor sends a prefix and reports its length", "statement": "Whatever the vectors and the kernel's answers: what is sent is a beginning of the gathered bytes, the stored count is its exact length, nothing else in memory changes, other descriptors are refused without effect; out-of-bounds vectors end the process.", "quantifier": "every memory content, vector list, kernel behaviour", "why_tests_cant": "Kernel answers (short counts, EAGAIN, errors), memory contents and vector layouts are unbounded; a program's library code runs inside the sandbox.", "anchors": ["runtime/abi/library.wat: fd_write", "runtime/loader/x86_64/runtime.S: rt_write, io_prologue"]}
{"id": "C88", "title": "Standard output and error go to debug output completely", "statement": "When fd_write to descriptor 1 or 2 returns, all of the gathered bytes have been written to debug output, in order, and the count tells so.", "quantifier": "every memory content, vector list, kernel behaviour", "why_tests_cant": "Kernel answers (short counts, EAGAIN, errors), memory contents and vector layouts are unbounded; a program's library code runs inside the sandbox.", "anchors": ["runtime/abi/library.wat: fd_write", "runtime/loader/x86_64/runtime.S: rt_debug"]}
{"id": "C89", "title": "fd_read on the Gate descriptor receives a prefix of the input", "statement": "What is received is a beginning of the input, put into the buffers in order; the rest of the input stays; the stored count is exact; other descriptors are refused without effect.", "quantifier": "every memory content, vector list, kernel behaviour", "why_tests_cant": "Kernel answers (short counts, EAGAIN, errors), memory contents and vector layouts are unbounded; a program's library code runs inside the sandbox.", "anchors": ["runtime/abi/library.wat: fd_read", "runtime/loader/x86_64/runtime.S: rt_read"]}
{"id": "C90", "title": "The io function waits, then sends, then receives", "statement": "Waits if the flag is set; sending is done only if the kernel reported room, receiving only if it reported input; both transfer prefixes and store exact counts (unless the pointers are null).", "quantifier": "every argument, memory content, poll result and kernel behaviour", "why_tests_cant": "Kernel answers (short counts, EAGAIN, errors), memory contents and vector layouts are unbounded; a program's library code runs inside the sandbox.", "anchors": ["runtime/abi/library.wat: io", "runtime/loader/x86_64/runtime.S: rt_poll, rt_read, rt_write"]}
{"id": "C91", "title": "poll_oneoff answers subscriptions", "statement": "For descriptor subscriptions: at most one event per subscription, every event answers some subscription, bad descriptors and writable standard streams get their events, readiness of the Gate descriptor is what the kernel reported, and the events and their number are stored where they should be and nowhere else; it returns when some subscription is ready; events have the type of the subscription.", "quantifier": "every subscription array and poll result", "why_tests_cant": "Kernel answers (short counts, EAGAIN, errors), memory contents and vector layouts are unbounded; a program's library code runs inside the sandbox.", "anchors": ["runtime/abi/library.wat: poll_oneoff", "runtime/loader/x86_64/runtime.S: rt_poll"]}
{"id": "C92", "title": "random_get never reuses a byte", "statement": "The bytes that random_get stores come from the beginning of the process's random supply, in order, and are removed from it; when it returns success the buffer is full; when the supply runs out, the program is stopped, and continues with new bytes if it is resumed.", "quantifier": "every buffer, supply, number of resumptions", "why_tests_cant": "Needs all lengths and interleavings with resumptions.", "anchors": ["runtime/abi/library.wat: random_get", "runtime/loader/x86_64/runtime.S: rt_random, rt_stop"]}
{"id": "C93", "title": "The environment a program sees is the documented one", "statement": "environ_get stores pointers to the strings GATE_ABI_VERSION=0, GATE_FD=4 and GATE_MAX_SEND_SIZE=65536, zero-terminated, within the size that environ_sizes_get reports and writing nothing else; fd() is the descriptor of GATE_FD.", "quantifier": "every buffer address", "why_tests_cant": "Addresses range over the whole memory; the text is encoded as integers.", "anchors": ["runtime/abi/library.wat: environ_get, environ_sizes_get, fd"]}
{"id": "C94", "title": "Exiting is final", "statement": "proc_exit makes the process exit with the success or failure code; a program that is resumed after that exits again without doing anything else.", "quantifier": "every status and number of resumptions", "why_tests_cant": "The number of resumptions is unbounded.", "anchors": ["runtime/abi/library.wat: proc_exit", "runtime/loader/x86_64/runtime.S: rt_stop"]}
{"id": "C95", "title": "Unsupported operations stop the program", "statement": "Closing or renumbering a good descriptor, dropping rights, reading process or thread time, waiting for a clock, and raising a signal stop the program with an ABI-deficiency code, and never return to it; misuse is answered with an error and no effect.", "quantifier": "every argument and number of resumptions", "why_tests_cant": "The number of resumptions is unbounded.", "anchors": ["runtime/abi/library.wat: fd_close, fd_renumber, fd_fdstat_set_rights, clock_time_get, poll_oneoff, proc_raise", "runtime/loader/x86_64/runtime.S: rt_stop"]}
{"id": "C96", "title": "Descriptor information agrees with behaviour", "statement": "fd_fdstat_get reports good descriptors 0, 1, 2, 4 with their rights; an operation for which a right isn't reported is refused without effect; the remaining descriptor, socket and path functions answer the documented error codes without effect; every field of fd_filestat_get's answer is stored.", "quantifier": "every descriptor number and argument", "why_tests_cant": "2^32 descriptors and all memory states.", "anchors": ["runtime/abi/library.wat: fd_fdstat_get, fd_filestat_get, fd_fdstat_set_flags, *_stub_*, sock_*, args_*, sched_yield"]}
{"id": "C97", "title": "Reading the clock gives the time and keeps the program's state", "statement": "A guest that asks for a clock gets that clock's time with the policy's resolution (the monotonic clock shifted to continue from the stored time); its stack, memory and registers stay as they were, a suspend request that comes meanwhile is noticed; if the clock can't be read, the process exits with a status that tells so.", "quantifier": "every machine state in which the function can be called, every clock reading, with or without a signal during the reading", "why_tests_cant": "The code is x86-64 assembly: registers and memory have 64-bit values, and signals can come between any two instructions.", "anchors": ["runtime/loader/x86_64/runtime.S: rt_time, .Ltime", "runtime/loader/loader.c: main (time)"]}
{"id": "C98", "title": "The guest's monotonic clock never goes backwards", "statement": "The values of the monotonic clock that a program sees are in ascending order during its whole life, also when it is suspended and resumed on other hosts with other time resolutions.", "quantifier": "every number of incarnations, readings, hosts' clocks and resolutions", "why_tests_cant": "The history of an instance is unbounded; hosts' clocks are unrelated.", "anchors": ["runtime/loader/x86_64/runtime.S: .Ltime, .Lexit", "runtime/loader/loader.c: main (time)", "runtime/process.go: Process.Start"]}
{"id": "C99", "title": "A program's ending is told by the exit status, and its stack and clock are saved", "statement": "Returning, trapping, exhausting the stack, being suspended, stopping and memory faults each make the process exit with the status from which the host derives the result; the stack position and the monotonic time are stored before that, and the rest of the stack is as the program left it.", "quantifier": "every machine state at the ending, every trap code and result", "why_tests_cant": "The code is x86-64 assembly: registers and memory have 64-bit values, and signals can come between any two instructions.", "anchors": ["runtime/loader/x86_64/runtime.S: trap_handler, .Lexit, rt_stop, signal_handler"]}
{"id": "C100", "title": "Memory grows by exactly what was asked for, within the limit", "statement": "grow_memory beyond the limit returns -1 without effect; within the limit it makes exactly the new pages accessible, returns the old size and records the new one; failure of the system call is reported by the exit status.", "quantifier": "every machine state, increment, limit and system call result", "why_tests_cant": "The code is x86-64 assembly: registers and memory have 64-bit values, and signals can come between any two instructions.", "anchors": ["runtime/loader/x86_64/runtime.S: current_memory, grow_memory"]}
{"id": "C101", "title": "The random function gives out each byte once", "statement": "rt_random returns the last unused byte of the process's random data and marks it used; when there are none left it returns -1; nothing else changes.", "quantifier": "every machine state", "why_tests_cant": "The code is x86-64 assembly: registers and memory have 64-bit values, and signals can come between any two instructions.", "anchors": ["runtime/loader/x86_64/runtime.S: rt_random"]}
{"id": "C102", "title": "I/O system calls are confined to the guest's memory", "statement": "rt_read, rt_write and rt_debug make a system call for exactly the guest's buffer if it is within memory, and end the process with the out-of-bounds status otherwise; interruptions and would-block results give 0; failures have their own statuses; debug output is written completely and in order despite partial writes and interruptions.", "quantifier": "every machine state, buffer, memory size, system call result and sequence of partial writes", "why_tests_cant": "The code is x86-64 assembly: registers and memory have 64-bit values, and signals can come between any two instructions.", "anchors": ["runtime/loader/x86_64/runtime.S: rt_read, rt_write, rt_debug, io_prologue"]}
{"id": "C103", "title": "Polling reports the requested conditions", "statement": "rt_poll waits for the requested conditions of input and output, reports them, gives nothing when interrupted or when the input has been closed, and exits with a status on unexpected conditions; a program that has been told to suspend doesn't wait.", "quantifier": "every machine state, poll result and conditions", "why_tests_cant": "The code is x86-64 assembly: registers and memory have 64-bit values, and signals can come between any two instructions.", "anchors": ["runtime/loader/x86_64/runtime.S: rt_poll"]}
{"id": "C104", "title": "A suspend request is never lost", "statement": "Whenever the suspend signal comes while the runtime's functions are executing, the program finds its limit register set when it gets control back, so it suspends at the next call or loop; the program's other state isn't disturbed.", "quantifier": "every function, every instruction at which the signal can come, any number of signals, every result of system calls and the C function", "why_tests_cant": "All interleavings of signals with instructions.", "anchors": ["runtime/loader/x86_64/runtime.S: signal_handler, .Ltime, all functions"]}
{"id": "C105", "title": "The runtime's code is confined", "statement": "Whatever the schedule and results are, the runtime's functions never reach an undefined or trapping instruction, make only the system calls that the sandbox permits, store only to their own variables and around the guest's stack pointer, and transfer control only to the C function and the guest's resume routine.", "quantifier": "every execution, of any length, with any signals and results", "why_tests_cant": "All interleavings and results.", "anchors": ["runtime/loader/x86_64/runtime.S"]}
{"id": "C106", "title": "The sandbox is entered before the program runs", "statement": "The loader's memory is unmapped and then the system call filter installed before the first instruction of the guest program; failure of either ends the process with its status; a program that has been told to suspend exits at once; the program starts with no other values in registers than its stack, limit and text addresses.", "quantifier": "every machine state left by the loader, every system call result", "why_tests_cant": "The code is x86-64 assembly: registers and memory have 64-bit values, and signals can come between any two instructions.", "anchors": ["runtime/loader/x86_64/runtime.S: runtime_init, runtime_init_no_sandbox"]}
{"id": "C107", "title": "A program's state survives every way of keeping it", "statement": "A built program contains exactly its text, module, object map, stack, globals and memory.  However many times, and in whatever order, it is instantiated, stored to the file system, loaded from there and made into a snapshot, the call stack, globals and memory from which it continues (and the text address to which the stack refers) are the same.", "quantifier": "every module contents and sizes within the image format's limits, every sequence of operations of any length, every stack size", "why_tests_cant": "Sizes and contents are arbitrary, and images go through any number of operations in any order.", "anchors": ["image/build.go: NewBuild, FinishText, FinishProgram, FinishInstance", "image/instance.go: NewInstance", "image/memory.go: storeInstance, copyInstance", "image/snapshot.go: Snapshot", "image/objectmap.go"]}
{"id": "C108", "title": "Parts of image files don't overlap, and new instances start clean", "statement": "In a program's file the text, stack, globals and memory, module, object map and manifest occupy disjoint ranges; in an instance's file the used stack is above the runtime's variables and signal stack, and memory is below the manifest.  The runtime's variables of a new, or loaded, instance are zero.", "quantifier": "every module contents and sizes within the limits, every history of images", "why_tests_cant": "Sizes and contents are arbitrary, and images go through any number of operations in any order.", "anchors": ["image/build.go: progTextOffset, progGlobalsOffset, progModuleOffset, progManifestOffset", "image/instance.go: instManifestOffset, NewInstance", "internal/executable/stack.go"]}
{"id": "C109", "title": "The functions that the guest library calls are what the machine code does", "statement": "Whatever the contents of memory and registers, and whatever the kernel answers, a call of the runtime's nop, read, write, poll, random, stop or debug function by a program comes, in the machine code, to the end that the library's semantics of the function says: return of the same result with the same memory, remaining random bytes, input, output and debug output; exit with the same status; or waiting for an answer.", "quantifier": "every function but time, every process state, every argument, every sequence of kernel answers (counts, errors, poll conditions)", "why_tests_cant": "The machine code, the kernel's answers and the state of memory are arbitrary; the functions were specified in another language than the one in which they are written.", "anchors": ["runtime/loader/x86_64/runtime.S: rt_nop, rt_read, rt_write, rt_poll, rt_random, rt_stop, rt_debug", "runtime/abi/library.wat"]}
{"id": "C110", "title": "A started process finds its functions and parameters", "statement": "In every started process the slot of the import vector that the library's import is bound to holds the address of the function which the import names.  The runtime finds the clock, clock resolution, memory address, growth limit, memory size, time and random bytes which the process was started with, and the registers and mappings are such as the runtime's functions suppose.", "quantifier": "every program, every random numbers, every import, every state in which the program calls an imported function", "why_tests_cant": "Two tables in two languages must agree with each other and with offsets in a third, for all parameters.", "anchors": ["runtime/loader/loader.c: main (vector, stack_vars)", "runtime/abi/abi.go: rtFunctions", "runtime/process.go: imageInfo, getRand", "runtime/loader/x86_64/runtime.S"]}
{"id": "C111", "title": "A request's context tells that request's details", "statement": "The details (interface, request number, address, operation, principal) that a context tells to authorizers and that are reported in events are those which the request's handling has given; deriving contexts, and other requests, don't change what a context or a reported event tells.", "quantifier": "every number of requests, every interleaving of derivations of contexts and reports of events", "why_tests_cant": "Requests are concurrent, and details are shared objects: what is told depends on the whole history.", "anchors": ["server/context.go: ContextWithIface, ContextWithRequestAddr, ContextWithOp, detachedContext, ContextDetail, ContextOp", "internal/principal/principalid.go: ContextWithID", "server/web/handler.go: newHandler"]}
{"id": "C112", "title": "A program process has one key with service processes", "statement": "All service instances of a program process which exist at the same time present the same process key to the service processes, a key of one process is never presented for another process (not even later), and a key is remembered exactly as long as some instance uses it.", "quantifier": "every number of processes and service instances, every interleaving of the critical sections of their creation and ending", "why_tests_cant": "Instances of the same process can be created at the same time; the key is looked up and inserted in different critical sections.", "anchors": ["service/grpc/grpc.go: getProcKey, putProcKey, CreateInstance, Shutdown, Suspend"]}
{"id": "C113", "title": "Messages to and from service processes aren't lost, duplicated or reordered", "statement": "Each message that a service process sends becomes one packet which goes to the program or, if the program is suspended, to the service's snapshot, in order; each packet to the service is received by it or is in its snapshot, in order.  A bad message from a service process fails only the program instance.", "quantifier": "every sequence of messages and failures, every point of cancellation", "why_tests_cant": "Cancellation can come between any two steps.", "anchors": ["service/grpc/grpc.go: receiveForward, receiveBuffer, Handle, Suspend, mustBePacket", "packet/packet.go: SetCode, SetSize"]}
{"id": "C114", "title": "Service instances are created, started and stopped properly", "statement": "A service instance is created at most once for each service of a program, gets ready, is started and gets packets in this order, gets no calls after one has failed except that it's stopped, and every created instance is stopped exactly once.  Unavailable services get no calls.", "quantifier": "every set of restored services, sequence of packets, order of map iterations, and combination of failures", "why_tests_cant": "Any call can fail, and instances are iterated over in random order.", "anchors": ["service/registry.go: StartServing, serve, Shutdown, Suspend", "runtime/io.go: ioLoop"]}
{"id": "C115", "title": "Websocket connections carry the streams and at most one hint", "statement": "The program's output is sent on a websocket connection in order, each write as one message with its length returned, or as an error once a write has failed; nothing is sent after a failure.  One hint is sent when input is first read, never at the same time as other data.  What is read is the concatenation of the frames which were received, and a read gets data unless there is none.  Reader and writer don't block each other forever.", "quantifier": "every interleaving of one reading and one writing goroutine, all results of sending, all frames, buffer sizes and ways of reading them", "why_tests_cant": "Reading writes a hint; races between it and the writer depend on the schedule.", "anchors": ["server/web/websocket.go: websocketReadWriter.Read, writeInputHint, CloseRead, Write"]}
{"id": "C116", "title": "Files created in advance have one owner and don't leak", "statement": "When program and instance files are created in advance, each file goes to at most one caller, in order of creation; files which nobody gets are closed once, the rest not at all; at most the given number of files waits; after cancellation all files have been given or closed, and no caller waits for ever.  Any buffer size works.", "quantifier": "every schedule of the creating goroutine and any number of callers, every result of creation, every time of cancellation", "why_tests_cant": "Callers and the closing goroutine receive from the same channel; what each gets depends on the schedule.", "anchors": ["image/prepare.go: PreparePrograms, PrepareInstances, preparePrograms, newProgramFile"]}
{"id": "C117", "title": "Host ids of a container are suitable", "statement": "The host user and group ids which a container is given are those that were configured, and otherwise the lowest ids of the range that subuid(5)/subgid(5) assigns to the current user which are not the range's first id, not the user's own id, not configured for the other role and not already given: positive, distinct; it fails only if there aren't enough of them.  Each is mapped alone.", "quantifier": "every configuration, every subuid and subgid file with lines user:base:count, every current user and group", "why_tests_cant": "Ranges, reserved ids and partially configured credentials combine without bound.", "anchors": ["internal/container/cred.go: ParseCreds, subIDMap.parse, getID", "internal/container/namespace.go: setupNamespace, writeIdMap"]}
{"id": "C118", "title": "A program's process has no privileges", "statement": "In any process that gets as far as loading a program: no capabilities are held and none can be gained, it dies with its parent, it can't be traced or dumped, the resource limits are in effect; unless namespaces are disabled it has the executor's ids without supplementary groups, an empty read-only root directory and no access to the host's filesystem.  If nothing fails, that point is reached.  If the parent dies at any time, so does the container's process.", "quantifier": "every pattern of failing system calls, every initial state of the process, both namespace modes, every time of the parent's death", "why_tests_cant": "The order of some fifty system calls matters, and each can fail; a test sees only the run where all succeed.", "anchors": ["internal/container/child/container.go: childMain, furnishNamespaces, setCred", "runtime/executor/executor.c: main, spawn_child", "runtime/loader/loader.c: main"]}
{"id": "C119", "title": "A program's process has no files but its own", "statement": "When a program starts, its process has exactly its own input and output open, and its own debug output if requested; whatever processes have been created, suspended and reaped before.  The executor doesn't leak descriptors, and doesn't run out of them as long as there are at most 16384 processes.", "quantifier": "every sequence of batches of requests and process exits, with or without cgroups and debugging", "why_tests_cant": "Descriptor numbers depend on the whole history; a leaked descriptor doesn't disturb a test.", "anchors": ["runtime/executor/executor.c: receive_ops, create_process, execute_child, wait_process, main", "runtime/loader/loader.c: receive_info", "internal/container/parent.go: Start", "internal/container/child/container.go: childMain, openProcPath", "internal/container/child/memfd.go"]}
{"id": "C120", "title": "A container isn't started before it is configured", "statement": "The container's process doesn't do anything before its cgroup, out-of-memory score and id maps have been configured.  If starting a container returns an error, its process is dead; otherwise it goes on.", "quantifier": "every interleaving of parent and container, every failing step, every time of the parent's death", "why_tests_cant": "The two processes run concurrently; failure paths depend on the order of deferred functions.", "anchors": ["internal/container/parent.go: Start", "internal/container/child/container.go: childMain"]}
{"id": "C121", "title": "A downloaded module is the one that was uploaded", "statement": "What is downloaded as a module has the hash that the module is named by, and the announced length.  A valid module within the limits can be uploaded, whatever others have uploaded before, and is downloaded unchanged.", "quantifier": "every history of uploads over HTTP (plain or gzip encoded) and websocket, and from HTTP and IPFS sources; every content and declared length", "why_tests_cant": "The stored size follows from what clients declare, in any order of requests; tests declare the truth.", "anchors": ["server/server.go: UploadModule, SourceModule, _loadKnownModule, _loadUnknownModule, _refProgram, ModuleContent", "server/program.go: _buildProgram", "image/build.go: NewBuild, ModuleWriter, FinishProgram", "server/web/content.go: mustDecodeContent", "server/web/handler.go: handleModuleUpload, handleCallWebsocket", "source/http/http.go: OpenURI", "source/ipfs/ipfs.go: OpenURI"]}
{"id": "C122", "title": "The module size limit is enforced", "statement": "No stored module, and no announced size, is greater than the limit.  The stream that is read from is closed exactly once.  A request that fails changes no module; one that succeeds changes no other module, its module can be downloaded, and its content has the module's hash: knowing the hash isn't enough for uploading.", "quantifier": "every history of requests, every declared length and actual content, including failing streams", "why_tests_cant": "Declared and actual lengths vary independently; ownership of the stream passes along a dozen failure paths.", "anchors": ["server/server.go: UploadModule, SourceModule", "server/upload.go: takeStream, _validate", "server/source.go: Close", "server/program.go: _buildProgram", "image/build.go: NewBuild"]}
{"id": "C123", "title": "Module sources keep to the size limit and the contract", "statement": "A source returns content only if its announced length is within the limit; no content and zero length if and only if there is no such object; no content and another length only if it's too long.  Content which isn't returned is closed.", "quantifier": "every response of an HTTP or IPFS server, every limit", "why_tests_cant": "Responses are arbitrary combinations of status and three headers.", "anchors": ["source/http/http.go: OpenURI, parseContentRange", "source/ipfs/ipfs.go: OpenURI", "server/source.go: Source"]}
{"id": "C124", "title": "Requests from foreign web sites aren't served", "statement": "Unless all origins are allowed by configuration, a request is served only if each origin that it names is a configured one, and the response allows that origin and nothing else.  Requests from configured origins, and those without origin, are served.  A handler that accepts unsigned tokens never allows all origins.", "quantifier": "every configuration and every Origin header", "why_tests_cant": "Headers and configurations are arbitrary text with white space and lists.", "anchors": ["server/web/handler.go: newHandler, NewHandlerWithUnsecuredLocalAuthorization", "server/web/request.go: mustBeAllowedOrigin", "server/web/response.go: setAccessControl"]}
{"id": "C125", "title": "Clients aren't told private details of errors", "statement": "The answer to a failed request depends only on the public part of the error; its status tells what kind of an error it was, only internal errors are reported as such, and it's never a success.  A rate limited client is told for how long to wait.  The same goes for websocket connections.", "quantifier": "every error, also those of types unknown to the server", "why_tests_cant": "Noninterference quantifies over pairs of errors.", "anchors": ["server/web/response.go: respondServerError", "server/web/websocket.go: WriteError", "server/access.go: accessUnauthorized, accessForbidden", "server/ratelimit.go: RetryAfter", "internal/error, server/internal/error"]}
{"id": "C126", "title": "Access policies deny or limit by default", "statement": "Without an access policy nothing is served.  With public access, every policy that's asked for is given, with the documented default for each limit that isn't configured; and the limits apply.", "quantifier": "every configuration, every kind of request, every history", "why_tests_cant": "Each limit can be left out independently.", "anchors": ["server/access.go: NoAccess, PublicAccess, ConfigureResource, ConfigureProgram, ConfigureInstance", "server/server.go: UploadModule, SourceModule"]}
{"id": "C127", "title": "Requests reach what their paths name", "statement": "A request for an instance's, a known module's or a source's path is handled as one for that instance, module or source, with the right id or URI; the most specific directory decides when sources are nested, in whatever order they are registered.  An instance's path always reaches the instance.  Paths that name nothing get 404.", "quantifier": "every path prefix, every set of module sources (whose names don't end with slashes), every path", "why_tests_cant": "Sources are registered in random order, and paths and source names are arbitrary text.", "anchors": ["server/web/handler.go: newHandler, newFeatureHandler, newKnownModuleHandler, newModuleSourceHandler, newInstanceHandler, newRedirectHandler, newStaticHandler", "server/web/api/webapi.go: Path, PathModule, PathInstances"]}
{"id": "C128", "title": "Safe methods are safe", "statement": "GET and HEAD requests only read, except that they can be used to open a websocket connection.  HEAD is handled as GET.  PUT requests do something only to known modules, and requests with other methods than these and POST do nothing.  The methods that the Allow header lists are supported, and it lists all that are.", "quantifier": "every path, method and query", "why_tests_cant": "Methods, endpoints and query parameters combine freely.", "anchors": ["server/web/handler.go: newFeatureHandler, newKnownModuleHandler, newModuleSourceHandler, newInstanceHandler, handleGetKnownModule, handleGetModuleSource, handleGetInstance", "server/web/response.go: setOptions, respondMethodNotAllowed"]}
{"id": "C129", "title": "A daemon call runs with the scope it asked for", "statement": "A program that is called, launched or resumed through the daemon's D-Bus interface has exactly the scopes that the call asked for.  The daemon's memory use doesn't grow with the number of calls that have been made.", "quantifier": "every set of registered scopes, any number of concurrent calls, every interleaving of their steps", "why_tests_cant": "The calls share a variable; the outcome depends on the schedule.", "anchors": ["cmd/gate-daemon/main/daemoncmd.go: methods, authorizeScope", "scope/scope.go: Context, ContextContains"]}
{"id": "C130", "title": "Calls made while the daemon starts are served", "statement": "A D-Bus call that is made while the daemon is initializing waits for the initialization and is then served.  Once the daemon has been initialized and a call has been served, no call waits for it or fails because of it.", "quantifier": "any number of concurrent calls, every interleaving with initialization and shutdown", "why_tests_cant": "Startup races are rarely exercised.", "anchors": ["cmd/gate-daemon/main/daemoncmd.go: methods, mainResult"]}
{"id": "C131", "title": "Files passed to the daemon are closed exactly once", "statement": "Every file descriptor that is passed with a D-Bus call is closed exactly once, whether the call succeeds or not; the debug log when the instance stops running.", "quantifier": "every way for a call to succeed or fail, every history of an instance", "why_tests_cant": "Ownership moves between the call, the server and the instance on each failure path.", "anchors": ["cmd/gate-daemon/main/daemoncmd.go: doCall, doLaunch, invokeOptions, moduleUpload", "server/instance.go: InvokeOptions, newInstance, startOrAnnihilate, stop, _doResume"]}
{"id": "C132", "title": "The daemon's static files are confined", "statement": "The daemon serves only the configured static files, and files in the configured directories; only for GET and HEAD requests, and not for foreign web sites.", "quantifier": "every configuration and every request", "why_tests_cant": "Paths are arbitrary text.", "anchors": ["cmd/gate-daemon/main/daemoncmd.go: newHTTPHandler, newStaticHTTPHandler"]}
{"id": "C133", "title": "Client commands do on the server what they say", "statement": "Each command of the command line client, when it is aimed at a remote server, makes the server perform the operation that the command is documented to perform, on the module or instance that was named, with the given function, tags and flags; also when the server's interface is mounted beneath a path prefix and module sources have been configured.", "quantifier": "every command, argument, flag combination, path prefix and set of module sources", "why_tests_cant": "Client and server are tested separately, and each has its own copy of the protocol's details.", "anchors": ["cmd/gate/main/remote.go: remoteCommands, callPost, callWebsocket, doHTTP, commandInstance", "server/web/handler.go: NewHandler, handlers", "server/web/request.go: mustAcceptJSON, mustDecodeContent", "server/web/api/webapi.go: InstanceUpdate"]}
{"id": "C134", "title": "The client tells how a call ended", "statement": "A remote call outputs everything that the program wrote, and the client's exit status tells how the program ended: zero only if it succeeded; the same way for remote and local calls.", "quantifier": "every sequence of messages, every schedule of reads and writes at the server, every final status", "why_tests_cant": "The server's hint about input may come at any point among the messages.", "anchors": ["cmd/gate/main/remote.go: callWebsocket, call command", "cmd/gate/main/local.go: call command", "server/web/websocket.go: writeInputHint"]}
{"id": "C135", "title": "The client's key authorizes its requests", "statement": "A command that is given a server's address sends its requests to that server, with a token that the server accepts as the user's principal with the requested scopes, provided that the address tells where the server is, the clocks are close enough, and there are at most ten scopes.  An unsigned token is sent only to loopback addresses.", "quantifier": "every address (host, host and port, with or without scheme and path prefix), every key, clock difference and set of scopes", "why_tests_cant": "The audience is computed from arbitrary text, and compared with what the server was configured with.", "anchors": ["cmd/gate/main/remote.go: makeURL, makeAuthorization, doHTTP", "server/web/handler.go: newHandler (identity)", "server/web/jwt.go", "server/web/verify.go"]}
{"id": "C136", "title": "The local client asks the daemon what its commands say", "statement": "Every command of the client that is used without a server's address calls a method which the daemon has, with arguments of the method's types in its order, so that the daemon asks of its server exactly the operation that the command is for (module by id or from a file, function, tags, scope, standard streams, suspension signal, debug log), and the values of the reply have the types which the client expects.", "quantifier": "every command with every argument, configuration and reply content", "why_tests_cant": "The method's name and the untyped argument list are resolved at run time by the message bus; a test needs both programs, and covers the commands it happens to run.", "anchors": ["cmd/gate/main/local.go", "cmd/gate/main/debug.go", "cmd/gate-daemon/main/daemoncmd.go: methods"]}
{"id": "C137", "title": "A module that is handed over through a pipe arrives, and the command ends", "statement": "When the local client hands a module to the daemon through a pipe, the daemon reads exactly the module's bytes whatever the pipe's capacity and the pieces in which the data moves, and the command ends after that.", "quantifier": "every size, pipe capacity, and interleaving of the client's writing, the daemon's reading, and the garbage collector", "why_tests_cant": "Whether the reader sees the end depends on who has the write end open, and on when the garbage collector runs.", "anchors": ["cmd/gate/main/local.go: import, pull", "cmd/gate-daemon/main/daemoncmd.go: uploadModule", "server/program.go: _buildProgram", "server/upload.go: _validate"]}
{"id": "C138", "title": "Exporting a module into a file is all or nothing", "statement": "When the client exports a module into a file, then whatever fails, and whenever the client is killed, the file is either what it was before or exactly the whole module; the command succeeds exactly in the latter case.  What is written to the standard output or a device is a part of the module from its beginning, and all of it if the command succeeds.  Nothing else is left behind, and the file's permissions stay.", "quantifier": "every module, way of dividing it, previous content, failing step and crash point", "why_tests_cant": "The crash can come between any two steps.", "anchors": ["cmd/gate/main/load.go: download", "cmd/gate/main/remote.go: exportRemote, checkCopy", "cmd/gate/main/local.go: exportLocalModule"]}
{"id": "C139", "title": "Programs stop after their instances have stopped", "statement": "The server program keeps running until one of its executor processes dies.  When the server program or the daemon exits, within the time allowed for the shutdown, the connections have been served and every instance has been suspended and has stopped (so that its state has been stored); nothing but a running instance keeps the daemon from exiting.", "quantifier": "every number of connections, list of instances and interleaving of the main goroutine, the watcher, connections and instances", "why_tests_cant": "Whether main exits first depends on the schedule.", "anchors": ["cmd/gate-server/main/servercmd.go: Main, main2", "cmd/gate-daemon/main/daemoncmd.go: mainResult", "server/server.go: Shutdown"]}
{"id": "C140", "title": "A backtrace shows the program's call stack", "statement": "Whatever the call stack of a suspended program is, and wherever its code was in memory, the client's backtrace of what the server exports has exactly its frames, innermost first: for each the function, the place of the call in the module, the parameters (which lie in the caller's frame) and the other variables in order; nothing else is shown, and the client doesn't crash.", "quantifier": "every code map, valid call stack, text address and module position table", "why_tests_cant": "Stacks have any depth and frames any number of parameters and variables, and the server's and the client's code must agree on the format.", "anchors": ["cmd/gate/main/debug.go: traceStack", "image/stack.go: exportStack"]}
{"id": "C141", "title": "Breakpoints are set where the arguments say", "statement": "The breakpoints which the debug command sets or deletes are exactly the offsets that its arguments denote: a number itself; FILE:LINE the lowest address of the line in each file whose path ends with FILE's components; a name the first instruction of each function of that name.  No argument is ignored: if one denotes nothing, the command does nothing; a module without debug information allows numbers only.  The order in which files are gone through doesn't matter.", "quantifier": "every list of arguments, debug information, code map and order of files", "why_tests_cant": "File names, their normalization and the tables are arbitrary, and Go's map order is random.", "anchors": ["cmd/gate/main/debug.go: parseBreakpoints"]}
{"id": "C142", "title": "Programs with access to the system run in their users' control groups", "statement": "On a server which authorizes by SSH keys, the process of a program that has been granted the system scope is made into the systemd slice of the user whose key it is, identified by the user's number; other processes, and all on a public server, are made into the configured group, or else the executor's.  Different numbers have different slices.  If the user id isn't a number or the slice doesn't exist, no process is made; otherwise one is.", "quantifier": "every key map, principal, scope, executor configuration, choice of executor and set of existing directories", "why_tests_cant": "User ids are arbitrary strings that become part of a path, and the group is decided across the access policy, the factories and the executor.", "anchors": ["runtime/system/usergroup.go: GroupUserProcesses", "runtime/group.go: OpenCgroup", "runtime/executor.go: NewGroupProcess, GroupExecutor", "internal/container/cgroup.go: OpenCgroupFD", "runtime/executor/executor.c: create_process, spawn_child", "server/sshkeys/authorized_keys.go: Authorize"]}
{"id": "C143", "title": "Requests are admitted, and answered, according to their content headers", "statement": "The web server refuses a request for its Accept, Content-Type or Content-Length headers exactly if it has none of the acceptable types in its list, the wrong content type, content where none is expected or an unknown length, each with its own status; what it sends back is of an acceptable type, texts of refusals included; trailers are sent if and only if they are asked for; and the API is reached only by encrypted requests to paths beneath its root.", "quantifier": "every list of header values, of any length and bytes, every operation, path, method and configuration", "why_tests_cant": "The headers are arbitrary lists with arbitrary parameters and white space, and the decision must be exact.", "anchors": ["server/web/request.go: acceptsText, acceptsJSON, acceptsTrailers, mustAcceptApplication, mustHaveContentType, mustHaveContentLength, mustNotHaveContent", "server/web/response.go: respond", "server/web/handler.go", "cmd/gate-server/main/servercmd.go: newHTTPSHandler, newHTTPHandler, handle"]}
{"id": "C144", "title": "Every instance has the built-in services, and extensions cannot take their names or settings", "statement": "A server starts with exactly the services which its extensions and gRPC servers offer, or not at all if one is invalid, two have the same name or an extension fails.  Every instance then has an origin connector and a catalog of its own and the identity service, even if others have registered services of those names, and otherwise the offered ones; creating an instance changes nothing for others.  A name has settings exactly if one extension, and only one, has them; those of the origin and gRPC services are always their own.", "quantifier": "every list of extensions, settings and services, every history of created instances", "why_tests_cant": "Names are arbitrary and come from independent packages and remote servers; registries share their parents.", "anchors": ["service/extension.go: Config, Init", "internal/services/services.go: Init", "service/registry.go: register, Clone, lookup", "service/grpc/config/config.go: Register", "cmd/gate-server/main/servercmd.go: Main", "cmd/gate-daemon/main/daemoncmd.go: mainResult"]}
{"id": "C145", "title": "The runtime daemon keeps its clients apart and nothing of them open", "statement": "Whatever clients connect, and whatever fails while their containers are being made, the runtime daemon closes each descriptor that it has opened exactly once, keeps none for clients whose containers run or have ended, and leaves no zombie processes behind; a client's connection is closed exactly when its container has gone or couldn't be made; and no client changes or delays another.  The daemon listens on exactly one socket, and removes nothing but a socket.", "quantifier": "every history of connections, outcomes of each operation and exits of containers, in every interleaving; every socket configuration", "why_tests_cant": "The failures are many and rare, and what has to be closed depends on how far the start went.", "anchors": ["cmd/gate-runtime/main/runtimecmd.go: Main, handle", "internal/container/parent.go: Start, Wait"]}
{"id": "C146", "title": "Nothing remains of gRPC services whose initialization fails, and closing releases all", "statement": "Initializing the configured gRPC services runs the commands in order and then connects to the targets in order, with the configured programs, arguments, addresses and security; it succeeds exactly if each command and target is well-formed and works, or is an optional target which can't be connected to.  If it fails then no process, descriptor or connection remains; otherwise exactly those of the connections remain, until Close, which releases them all and tells of the first failure.  A malformed command or target is reported as an error.  Each line that a process prints is logged.", "quantifier": "every list of commands and targets, every combination of failing operations, every output", "why_tests_cant": "Each operation of each connection may fail, after any number of earlier ones.", "anchors": ["service/grpc/config/config.go: Conf.Init, Conf.Close", "service/grpc/executable/executable.go: Execute, Conn.Close, logErrorOutput", "service/grpc/grpc.go: New, DialContext"]}
{"id": "C147", "title": "The interactive client sends each line and shows all output", "statement": "Each line that a user types is sent to the instance whole, in order and in its own message, after the greeting, up to the first failure; the instance's input ends when the user ends it; and all output of the instance is shown, in order.", "quantifier": "every sequence of lines and messages, every split of the messages, every failing write", "why_tests_cant": "Output comes in any number of messages and pieces, at any time.", "anchors": ["cmd/gate/main/repl.go: repl, websocketConn, replWebsocket", "cmd/gate/main/local.go: repl command"]}
{"id": "C148", "title": "The monitor page is shown only to the configured origins, and shows every event", "statement": "A connection to the monitor is accepted exactly if origins aren't configured or its origin is one of those; an accepted client is shown the state and then each event once and in order, until it's too slow, a write fails or the server stops, of which it's told if possible; and then its subscription ends and its connection is closed, each once.  The subscription ends when the client goes away.", "quantifier": "every configuration, origin, sequence of events and ends, every failing write", "why_tests_cant": "The connection may end at any point of an unbounded stream of events.", "anchors": ["server/monitor/webmonitor/webmonitor.go: checkOrigin, handle"]}
{"id": "C149", "title": "The server serves exactly if its configuration is valid, after everything else, and closes what it has opened", "statement": "The server handles API requests exactly if its configuration is valid and every operation that it needs succeeds; that's the last thing to happen, after clearing the capabilities and telling the service manager that it's ready; and however far it gets, exactly what it has opened is closed at the end, in reverse order.  No requests are handled before the capabilities are cleared; a server which serves has the storages it's configured with; and its monitor page is open to the local host only unless configured otherwise.", "quantifier": "every configuration, every combination of failing operations, every origin", "why_tests_cant": "The configuration's options decide the operations independently, and each of those may fail.", "anchors": ["cmd/gate-server/main/servercmd.go: main2", "server/monitor/webmonitor/webmonitor.go: checkOrigin"]}
{"id": "C150", "title": "Each event is logged exactly once where it belongs", "statement": "Every internal error is in the server's error log, every other event in the information log if logging is verbose, and all events on the monitor page if there's one: each exactly once, in order, and nothing else.  Without a monitor, the internal errors are in the default log.  Failures are in the error log.", "quantifier": "every history of events and errors, every configuration", "why_tests_cant": "Histories are unbounded, and events of every type go through combinations of monitors.", "anchors": ["server/monitorutil.go: MultiMonitor, ErrorEventLogger, ErrorLogger, defaultMonitor", "cmd/gate-server/main/servercmd.go: Main, main2", "server/server.go: New"]}
