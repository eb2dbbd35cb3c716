{
 "claims": [
  {
   "property": "C01",
   "status": "proved",
   "theorems": [
    "packet_header_writes",
    "packet_make_fields"
   ],
   "note": ""
  },
  {
   "property": "C02",
   "status": "proved",
   "theorems": [
    "flow_packet_history",
    "flow_validation_exact",
    "data_import_exact",
    "flow_packet_single",
    "data_packet_history"
   ],
   "note": ""
  },
  {
   "property": "C03",
   "status": "proved",
   "theorems": [
    "packet_split_regions"
   ],
   "note": "Regions and contents of the two parts for every packet. The documented special case is C66."
  },
  {
   "property": "C04",
   "status": "proved",
   "theorems": [
    "varint_roundtrip",
    "varint_scan_untrusted",
    "varint_scan_rejects",
    "varint_len_total_refuted"
   ],
   "note": "For non-negative int32 values and all untrusted input; negative values make Len panic (varint_len_total_refuted), which is outside the property but reachable, see C05."
  },
  {
   "property": "C05",
   "status": "proved",
   "theorems": [
    "stream_state_roundtrip",
    "stream_state_untrusted",
    "stream_pair_roundtrip",
    "stream_state_impossible_rejected"
   ],
   "note": "Round trip, truncation, limit and untrusted input.  Subscriptions of 2^31 and more: C67."
  },
  {
   "property": "C06",
   "status": "proved",
   "theorems": [
    "read_stream_flow_bound",
    "read_stream_packets"
   ],
   "note": "Every history, including suspensions.  Restored states with more data: C68."
  },
  {
   "property": "C07",
   "status": "proved",
   "theorems": [
    "read_stream_no_loss",
    "read_stream_no_lost_wakeup"
   ],
   "note": "No loss, order and continuation across suspensions for every history; no lost wakeup.  (That suspension itself can crash is C67.)"
  },
  {
   "property": "C08",
   "status": "partial",
   "theorems": [
    "read_stream_eof_partial",
    "read_stream_eof_refuted",
    "read_stream_eof_progress"
   ],
   "note": "Refuted as stated (EOF lost when the reader ends while data is pending); proved otherwise, with progress."
  },
  {
   "property": "C09",
   "status": "proved",
   "theorems": [
    "write_stream_accepts_iff_room",
    "write_stream_honest_accepted",
    "write_stream_rejected_no_effect"
   ],
   "note": "Every history and every position in the ring.  Cheating programs: C69."
  },
  {
   "property": "C10",
   "status": "proved",
   "theorems": [
    "write_stream_in_order",
    "write_stream_prefix",
    "write_stream_no_lost_wakeup",
    "write_stream_close_prompt_refuted"
   ],
   "note": "Includes progress: a blocked transfer has written everything. The program's close is propagated only after a pending flow packet is taken (write_stream_close_prompt_refuted, not part of the claim)."
  },
  {
   "property": "C100",
   "status": "partial",
   "theorems": [
    "memory_size_given",
    "grow_refused",
    "grow_granted_partial",
    "grow_by_zero",
    "grow_failure_status_refuted"
   ],
   "note": "Refuted: when mprotect fails, the exit status is the address instead of the error code, and its low byte is zero."
  },
  {
   "property": "C101",
   "status": "proved",
   "theorems": [
    "random_given",
    "random_exhausted"
   ],
   "note": ""
  },
  {
   "property": "C102",
   "status": "proved",
   "theorems": [
    "io_of_nothing",
    "io_out_of_bounds",
    "io_within_bounds",
    "io_failure_statuses",
    "debug_prints_everything"
   ],
   "note": "The size of a 4 GiB memory is computed as zero (see C87)."
  },
  {
   "property": "C103",
   "status": "partial",
   "theorems": [
    "poll_waits",
    "suspended_poll_waits_refuted"
   ],
   "note": "Refuted: a suspend request that comes before the system call doesn't prevent it from waiting."
  },
  {
   "property": "C104",
   "status": "partial",
   "theorems": [
    "suspend_signal_effect",
    "suspend_request_never_lost_partial",
    "suspend_during_clock",
    "suspend_in_c_function_refuted"
   ],
   "note": "Proved by an invariant over all executions for functions called from the program; signals within the C function are assumed to find the limit register unchanged.  Refuted without that assumption: the handler uses the interrupted rbx, which C code may have changed."
  },
  {
   "property": "C105",
   "status": "proved",
   "theorems": [
    "runtime_is_confined",
    "runtime_stores_are_confined"
   ],
   "note": "For the functions that the guest program can reach, and the exit after a fault."
  },
  {
   "property": "C106",
   "status": "proved",
   "theorems": [
    "sandbox_before_program",
    "start_without_sandbox"
   ],
   "note": ""
  },
  {
   "property": "C107",
   "status": "proved",
   "theorems": [
    "build_contents",
    "build_instance_contents",
    "build_refuses",
    "new_instance_state",
    "state_survives",
    "built_state_survives",
    "snapshot_text"
   ],
   "note": "For snapshots of suspended programs that have a stack (see the findings for snapshots of programs which haven't been started).  Files as functions from offsets to bytes; failing system calls left out."
  },
  {
   "property": "C108",
   "status": "proved",
   "theorems": [
    "program_layout",
    "instance_layout",
    "new_instance_vars"
   ],
   "note": ""
  },
  {
   "property": "C109",
   "status": "proved",
   "theorems": [
    "runtime_implements_calls"
   ],
   "note": "rt_time is C97's; stop until the program is resumed.  The guest library's theorems (C87-C96) thus hold of the machine code, apart from compilation by wag."
  },
  {
   "property": "C11",
   "status": "proved",
   "theorems": [
    "write_stream_flow_bound",
    "write_stream_flow_packets"
   ],
   "note": ""
  },
  {
   "property": "C110",
   "status": "partial",
   "theorems": [
    "vector_functions_partial",
    "vector_nop_refuted",
    "nop_never_called",
    "loaded_values",
    "loaded_process_ready"
   ],
   "note": "False of the import nop, which is bound to the growth limit's slot (refuted for every process); no program can come to call it.  The size of the machine code in bytes isn't modelled (loader.c's TODO: whether code and vector overlap)."
  },
  {
   "property": "C111",
   "status": "partial",
   "theorems": [
    "requests_isolated",
    "newest_context_tells",
    "principal_told_right",
    "event_principal_kept",
    "earlier_context_kept_refuted",
    "common_context_refuted"
   ],
   "note": "Proved: requests which begin with contexts of their own don't affect each other, the newest context tells exactly what was given, and principals are always right.  Refuted: a derived context changes its parent and earlier events, and requests with a common base context that has details tell each other's operation, number and address."
  },
  {
   "property": "C112",
   "status": "proved",
   "theorems": [
    "process_has_one_key",
    "key_has_one_process",
    "key_is_kept_while_used"
   ],
   "note": "For distinct generated keys (UUIDs)."
  },
  {
   "property": "C113",
   "status": "partial",
   "theorems": [
    "service_messages_arrive_once",
    "program_packets_arrive_once_partial",
    "canceled_call_duplicates_refuted",
    "short_message_crashes_refuted"
   ],
   "note": "Proved for packets from the service, and for packets to it if calls that fail weren't effective.  Refuted: a canceled call which was effective duplicates the packet, and a message shorter than 6 bytes crashes the whole server."
  },
  {
   "property": "C114",
   "status": "partial",
   "theorems": [
    "instances_live_properly",
    "created_instances_are_stopped_partial",
    "unavailable_services_get_no_calls",
    "failed_start_leaks_instances_refuted"
   ],
   "note": "Proved, except that instances are stopped only if the services could be started.  Refuted: if one of the restored services fails to start, the instances which were created before it are never stopped."
  },
  {
   "property": "C115",
   "status": "proved",
   "theorems": [
    "one_message_at_a_time",
    "hint_sent_once",
    "writes_sent_in_order",
    "websocket_calls_end",
    "reads_are_frames",
    "reads_get_something"
   ],
   "note": "One reading and one writing goroutine, as in packet/packetio."
  },
  {
   "property": "C116",
   "status": "partial",
   "theorems": [
    "prepared_file_has_one_owner",
    "prepared_files_do_not_leak",
    "prepared_calls_return_after_cancel",
    "prepare_instances_any_size",
    "prepare_programs_size_refuted"
   ],
   "note": "Proved, except for buffer sizes of programs: refuted, zero crashes (PrepareInstances corrects it)."
  },
  {
   "property": "C117",
   "status": "partial",
   "theorems": [
    "container_ids",
    "container_ids_distinct",
    "container_ids_available",
    "namespace_maps",
    "container_ids_positive_refuted",
    "configured_ids_distinct_refuted"
   ],
   "note": "Proved for well-formed files.  Refuted: a negative base is accepted, and can yield the host's root; ids that are configured explicitly are not checked against each other."
  },
  {
   "property": "C118",
   "status": "partial",
   "theorems": [
    "program_privileges",
    "executor_privileges",
    "program_reached",
    "parent_death_partial",
    "parent_death_refuted"
   ],
   "note": "Privileges proved for all faults; reachability proved.  The parent's death: proved for a single id and for disabled namespaces (_partial); refuted otherwise: changing credentials cancels the death signal, and getppid is 0, not 1, for the first process of a pid namespace."
  },
  {
   "property": "C119",
   "status": "partial",
   "theorems": [
    "program_files",
    "executor_files",
    "executor_descriptors",
    "executor_descriptors_refuted",
    "server_files_refuted"
   ],
   "note": "Proved if the server has no inherited descriptors without close-on-exec (otherwise refuted: they are passed on to the programs' processes).  The limit is sufficient while live processes and received files sum up to at most 16388; refuted in general: five requests in one batch with 16379 processes kill the executor."
  },
  {
   "property": "C12",
   "status": "partial",
   "theorems": [
    "write_stream_suspend_partial",
    "write_stream_suspend_open_partial",
    "write_stream_suspend_refuted"
   ],
   "note": "Proved whenever the writer is still open at the stop; refuted otherwise: a wrapped ring is saved with 2^32-size extra zero bytes and marshaling panics."
  },
  {
   "property": "C120",
   "status": "partial",
   "theorems": [
    "container_configured_partial",
    "container_configured_refuted",
    "container_killed_with_parent"
   ],
   "note": "Proved unless the parent is killed; then refuted: the pipe's end is taken for the go-ahead.  The signal arrives later."
  },
  {
   "property": "C121",
   "status": "partial",
   "theorems": [
    "module_content_partial",
    "module_upload_partial",
    "gzip_upload",
    "gzip_module_content_refuted",
    "websocket_module_content_refuted",
    "ipfs_module_content_refuted",
    "http_module_content_refuted",
    "module_upload_refuted",
    "gzip_upload_refuted"
   ],
   "note": "Proved if the declared lengths are those of the modules.  Otherwise refuted: a gzip encoded module is stored with the encoded length (padded with zeros; it no longer has the hash that it is named by), as are modules uploaded over websocket or from sources whose headers are wrong.  Such an upload prevents others from uploading the same module properly.  gzip encoded modules are rejected if they are longer than the encoding."
  },
  {
   "property": "C122",
   "status": "proved",
   "theorems": [
    "module_size_limit",
    "module_stream_closed",
    "module_upload_effect",
    "module_upload_content"
   ],
   "note": "For all requests."
  },
  {
   "property": "C123",
   "status": "partial",
   "theorems": [
    "http_source",
    "http_source_found",
    "ipfs_source",
    "source_not_found",
    "http_too_long_refuted",
    "ipfs_length_refuted"
   ],
   "note": "Proved, except for: HTTP responses with a part of the requested range, which are reported as too long although they aren't (refuted), and negative lengths of IPFS responses (refuted)."
  },
  {
   "property": "C124",
   "status": "partial",
   "theorems": [
    "foreign_requests_rejected",
    "allowed_requests_served",
    "local_handler_checks_origins",
    "all_origins_checked_refuted"
   ],
   "note": "Proved for the first Origin header.  Refuted for further ones: they are ignored."
  },
  {
   "property": "C125",
   "status": "partial",
   "theorems": [
    "private_details_hidden",
    "error_status",
    "any_error",
    "error_reported",
    "retry_after_positive",
    "retry_after_suffices_refuted",
    "websocket_error_partial",
    "websocket_error_refuted"
   ],
   "note": "Proved.  Refuted: waiting for as long as told isn't sufficient, as the time is rounded down; a websocket client isn't told anything if the public text has more than 123 bytes."
  },
  {
   "property": "C126",
   "status": "partial",
   "theorems": [
    "public_access_limits",
    "no_access",
    "public_access_module_size",
    "resource_policy_refuted"
   ],
   "note": "Proved for programs; refuted for resources: the limits for modules, processes and total sizes aren't enforced."
  },
  {
   "property": "C127",
   "status": "proved",
   "theorems": [
    "requests_reach_what_they_name",
    "instances_reached",
    "known_modules_reached",
    "sources_order_irrelevant"
   ],
   "note": "For all clean paths; patterns with host names are left out."
  },
  {
   "property": "C128",
   "status": "partial",
   "theorems": [
    "get_requests_only_read",
    "head_is_get",
    "other_methods_do_nothing",
    "unsupported_methods_rejected",
    "allowed_methods_work",
    "allowed_methods_listed_refuted"
   ],
   "note": "Proved, except that the Allow header doesn't list all methods: GET and HEAD are always missing, and POST is missing for the list of instances (refuted)."
  },
  {
   "property": "C129",
   "status": "partial",
   "theorems": [
    "daemon_scope_partial",
    "daemon_scope_refuted",
    "daemon_context_bounded_refuted"
   ],
   "note": "Proved if no other call with a scope parameter overlaps.  Refuted otherwise: the methods assign to a captured context variable, so a program can get another call's scope (such as program:system).  Refuted: each call with a scope adds a value to the shared context for good."
  },
  {
   "property": "C13",
   "status": "partial",
   "theorems": [
    "write_stream_restore_refuted",
    "write_stream_restore_overwrites_refuted"
   ],
   "note": "Refuted for every honest history: the restored transfer returns \"subscription overflow\" at once."
  },
  {
   "property": "C130",
   "status": "partial",
   "theorems": [
    "daemon_first_call_partial",
    "daemon_serves_partial",
    "daemon_early_calls_refuted"
   ],
   "note": "Proved for a single early call, and for all calls after it.  Refuted for two: the server is sent only once to the channel, so one of the calls waits until the daemon is shut down, whatever else happens, and then fails."
  },
  {
   "property": "C131",
   "status": "partial",
   "theorems": [
    "call_files_closed",
    "call_files_closed_partial",
    "call_files_closed_refuted",
    "debug_logs_closed_partial",
    "debug_logs_closed_refuted"
   ],
   "note": "Proved, except for: a module which isn't a regular file (its descriptor isn't closed: refuted), and the debug log of an instance that is created in suspended state (when the instance is resumed, the log is forgotten without being closed: refuted)."
  },
  {
   "property": "C132",
   "status": "proved",
   "theorems": [
    "static_files_confined"
   ],
   "note": "For request paths without .. elements, which http.ServeFile rejects (net/http isn't modelled); symbolic links in the directories aren't considered."
  },
  {
   "property": "C133",
   "status": "partial",
   "theorems": [
    "arguments_unambiguous",
    "remote_commands_do_what_they_say",
    "remote_launch_from_source_refuted",
    "remote_debug_refuted",
    "remote_update_refuted",
    "remote_repairs",
    "client_recognizes_success"
   ],
   "note": "Proved for all commands except three forms which are refuted: launching a module from an IPFS path (PUT where only GET, HEAD and POST are supported: 405), debug (sends protobuf where JSON is required), and update (names a field \"transient\" which the server doesn't know).  remote_repairs shows what would work."
  },
  {
   "property": "C134",
   "status": "partial",
   "theorems": [
    "call_tells_everything",
    "call_tells_everything_refuted",
    "call_repair",
    "remote_call_success",
    "call_exit_is_result",
    "same_exit_refuted"
   ],
   "note": "Proved for programs which don't read their input, and for the exit status of a remote call.  Refuted otherwise: the client ends at the input hint, whatever follows it, with exit status 1.  Refuted: local and remote clients agree on the exit status (suspended and halted instances)."
  },
  {
   "property": "C135",
   "status": "partial",
   "theorems": [
    "client_reaches_server",
    "client_audience",
    "client_audience_refuted",
    "client_authorized",
    "client_unauthorized",
    "client_authorized_refuted",
    "client_local",
    "client_local_authorized"
   ],
   "note": "Proved for addresses with a scheme, and hosts without port, without a slash at the end; with the exact clock tolerance (client_unauthorized).  Refuted: with host:port and no scheme, requests reach the server but the token is never accepted, or the client exits (client_authorized_refuted, client_audience_refuted); likewise with a slash at the end."
  },
  {
   "property": "C136",
   "status": "partial",
   "theorems": [
    "local_commands_do_what_they_say",
    "local_meaning_unambiguous",
    "local_given_up",
    "methods_typed",
    "local_debug_refuted",
    "local_debug_repair"
   ],
   "note": "Proved for all commands, except for those debug commands which need the module's content (backtrace, dumptext, breakpoints given as functions or lines): they call a method \"Download\", which doesn't exist, after asking for the instance's configuration or stack (local_debug_refuted); with the existing method's name they are proved, too (local_debug_repair).  methods_typed ties the dispatch to the table of the methods' signatures."
  },
  {
   "property": "C137",
   "status": "partial",
   "theorems": [
    "reply_after_everything",
    "pipe_bounded",
    "pull_ends",
    "import_file_ends",
    "import_ends_refuted",
    "import_ends_partial"
   ],
   "note": "Proved for pull and for importing a regular file.  Refuted for importing from a pipe or another special file: the client never closes its write end, so that client and daemon wait for each other (import_ends_refuted) until a garbage collection happens to close the unreachable file (import_ends_partial)."
  },
  {
   "property": "C138",
   "status": "partial",
   "theorems": [
    "export_all_or_nothing",
    "export_to_device",
    "export_to_stdout",
    "export_can_succeed",
    "export_get_failure_clean",
    "export_failure_clean_refuted",
    "export_mode_refuted"
   ],
   "note": "Proved for the file's content at every crash point (of the process), the standard output and devices.  Refuted: a failure after the temporary file was made leaves it behind, as log.Fatal skips the deferred removal (export_failure_clean_refuted; not if getting the module fails, export_get_failure_clean); an existing file's permissions become 0600 (export_mode_refuted)."
  },
  {
   "property": "C139",
   "status": "partial",
   "theorems": [
    "server_keeps_running",
    "stop_time_limit",
    "daemon_stop",
    "daemon_stop_progress",
    "server_stop_repair",
    "server_stop_refuted",
    "exits_stopped_refuted",
    "daemon_stop_refuted"
   ],
   "note": "Proved that the server program goes on until an executor dies, and the whole for the daemon as long as it has its message bus, with progress.  Refuted for the server program (server_stop_refuted, exits_stopped_refuted): main returns from Serve as soon as the shutdown begins and exits without waiting; server_stop_repair proves that waiting for the watcher would suffice.  Refuted for a daemon that has lost the bus (daemon_stop_refuted), as its shutdown's context is the bus connection's.  Nothing holds the server's shutdown up after its time limit (stop_time_limit)."
  },
  {
   "property": "C14",
   "status": "proved",
   "theorems": [
    "io_reader_packets",
    "io_reader_bad_size",
    "io_writer_roundtrip"
   ],
   "note": ""
  },
  {
   "property": "C140",
   "status": "partial",
   "theorems": [
    "backtrace_shows",
    "backtrace_end_to_end",
    "backtrace_unique"
   ],
   "note": "The computation is proved in full, also composed with the server's export (backtrace_end_to_end), and that only one result is right (backtrace_unique).  But the command as a whole doesn't reach it, because it calls a D-Bus method that doesn't exist (see C136); and the client's code map is taken to be the server's (the compiler isn't modelled)."
  },
  {
   "property": "C141",
   "status": "partial",
   "theorems": [
    "breakpoints_exact",
    "breakpoints_fail",
    "breakpoints_no_info"
   ],
   "note": "Proved for the computation, with number parsing and the DWARF reader as parameters; the instructions' offsets must be ascending (as the compiler maps them).  But file and function arguments don't work, because the command calls a D-Bus method that doesn't exist (see C136)."
  },
  {
   "property": "C142",
   "status": "proved",
   "theorems": [
    "process_group",
    "process_group_made",
    "process_group_refused",
    "public_group",
    "group_executor",
    "slices_distinct"
   ],
   "note": "The whole, down to the descriptor that is given to clone3; that the kernel puts the process into that directory's group is trusted."
  },
  {
   "property": "C143",
   "status": "partial",
   "theorems": [
    "accept_exact",
    "admitted_exactly",
    "refused_why",
    "response_acceptable_partial",
    "response_unacceptable_refuted",
    "update_content",
    "error_text",
    "weight_refuted",
    "case_refuted",
    "trailers_exact",
    "front_api",
    "front_plain",
    "front_other"
   ],
   "note": "The decisions are exact, with a specification of lists' elements and media types.  Missing: two operations answer with JSON whatever the client accepts (response_unacceptable_refuted); a weight of zero counts as acceptance and media types are compared case-sensitively (weight_refuted, case_refuted)."
  },
  {
   "property": "C144",
   "status": "proved",
   "theorems": [
    "config_exact",
    "settings_exact",
    "started_exactly",
    "instances_services"
   ],
   "note": "The whole; an extension's Init is modelled as a list of registrations and an outcome."
  },
  {
   "property": "C145",
   "status": "proved",
   "theorems": [
    "descriptors",
    "descriptors_bounded",
    "connection",
    "client_progress",
    "clients_independent",
    "listens_exactly"
   ],
   "note": "The whole; a container's configuration is one step (see C120 for its details), and descriptors are taken to be close-on-exec as Go makes them."
  },
  {
   "property": "C146",
   "status": "partial",
   "theorems": [
    "resources_sound",
    "failed_init_releases",
    "error_releases",
    "init_holds",
    "close_releases",
    "close_error",
    "init_succeeds",
    "init_order",
    "init_conns",
    "lines_logged",
    "malformed_is_an_error_refuted",
    "close_terminates_refuted",
    "output_logged_refuted"
   ],
   "note": "Refuted: a blank command or target, or a command that is only @path, crashes instead of being reported (the last one leaves its connection); Close doesn't terminate a process unless closing its connection fails, but waits for it (so the termination is taken as given in the resource theorems); output after the last newline isn't logged."
  },
  {
   "property": "C147",
   "status": "partial",
   "theorems": [
    "printed_exactly",
    "printed_prefix",
    "all_output_shown_refuted",
    "single_message_shown",
    "lines_sent",
    "input_ends_refuted",
    "input_ends"
   ],
   "note": "Input is as claimed up to a failure.  Refuted: over a websocket, only the first message of the instance's output is shown (the end of a message is taken for the end of the output); the input isn't ended before the output has ended.  Proved instead: exactly what is shown, which is a prefix of the output, and exactly when the input is ended."
  },
  {
   "property": "C148",
   "status": "partial",
   "theorems": [
    "monitor_origins",
    "no_origins",
    "monitor_frames",
    "monitor_cleanup",
    "monitor_rejected",
    "gone_is_noticed_refuted"
   ],
   "note": "Refuted only: a client which has gone away isn't noticed before something is written to it (nothing reads from the connection, so its close handler isn't called).  The rest is proved."
  },
  {
   "property": "C149",
   "status": "partial",
   "theorems": [
    "starts_exactly",
    "serving_last",
    "start_closes",
    "page_exactly",
    "page_restricted_refuted",
    "no_requests_with_capabilities_refuted",
    "serving_can_store_refuted"
   ],
   "note": "Refuted: the monitor's and ACME's requests are handled before the capabilities are cleared; with filesystem storage but no directory the server starts with a nil storage; a monitor page at an address that doesn't start with localhost: is open to every origin unless configured.  The rest is proved; operations not depending on the configuration's kind (preparing, sources) are left out."
  },
  {
   "property": "C15",
   "status": "partial",
   "theorems": [
    "io_output_preserved_partial",
    "io_suspend_cut_partial",
    "io_output_cut_refuted"
   ],
   "note": "Proved over any number of successful suspensions; refuted: a suspension with a partly written packet (not exactly a header) returns an error instead of saving."
  },
  {
   "property": "C150",
   "status": "partial",
   "theorems": [
    "server_logs",
    "default_logs",
    "combined",
    "failures_logged_refuted"
   ],
   "note": "Refuted only: failures of requests, protocol and network aren't errors for the log; with verbose logging they're in the information log, otherwise nowhere.  The rest is proved."
  },
  {
   "property": "C16",
   "status": "proved",
   "theorems": [
    "io_only_deliverable",
    "io_undeliverable_fails",
    "io_service_packet"
   ],
   "note": "Service code, domain and data header length are what the code checks; io_service_packet covers packets from services."
  },
  {
   "property": "C17",
   "status": "proved",
   "theorems": [
    "discovery_request",
    "discovery_duplicate",
    "discovery_limit",
    "discovery_only_requests",
    "discovery_history",
    "discovery_no_panic"
   ],
   "note": "Every request packet and history.  Snapshots with more than 256 services: C70."
  },
  {
   "property": "C18",
   "status": "proved",
   "theorems": [
    "registry_register",
    "registry_isolated",
    "registry_parent_unaffected",
    "registry_clone",
    "registry_lookup_shadowing",
    "registry_catalog"
   ],
   "note": "Unicode category tests are a parameter."
  },
  {
   "property": "C19",
   "status": "partial",
   "theorems": [
    "suspend_services_partial",
    "restart_services",
    "suspend_services_refuted"
   ],
   "note": "Proved if the instance returns a nonempty state; refuted otherwise: the state it was restored from is saved again."
  },
  {
   "property": "C20",
   "status": "proved",
   "theorems": [
    "origin_ids_distinct",
    "origin_id_routes_to_connection",
    "origin_lowest_free_id",
    "origin_accept_accounting",
    "origin_unanswered_exact",
    "origin_no_lost_wakeup",
    "origin_stream_kept"
   ],
   "note": ""
  },
  {
   "property": "C21",
   "status": "proved",
   "theorems": [
    "origin_state_roundtrip",
    "origin_untrusted_state"
   ],
   "note": "Codec, for every state within the format's limits and every byte string.  The state at suspension: C71."
  },
  {
   "property": "C22",
   "status": "partial",
   "theorems": [
    "calls_answered_once",
    "pending_call_saved",
    "calls_answered_once_resumed_partial",
    "call_answered_twice_refuted",
    "call_answered_twice_identity_refuted",
    "call_lost_refuted"
   ],
   "note": "Proved within a run and across one suspension; refuted for two suspensions (answered twice) and for calls made after cancellation (lost)."
  },
  {
   "property": "C23",
   "status": "proved",
   "theorems": [
    "snapshot_section_roundtrip",
    "snapshot_reader_untrusted",
    "buffer_section_roundtrip",
    "buffer_reader_untrusted",
    "snapshot_section_negative_result_refuted",
    "buffer_reader_allocation_refuted"
   ],
   "note": "Round trips for all contents within the limits stated in the property, plus readers on untrusted input. Outside the limits: a negative result is written unreadably (refuted), and the reader requests memory for an unchecked service count (refuted). wag's Varuint32/64 are modelled as spec LEB128 readers."
  },
  {
   "property": "C24",
   "status": "proved",
   "theorems": [
    "memory_section_denotes",
    "global_section_denotes",
    "global_section_empty",
    "data_section_denotes",
    "stack_section_denotes",
    "export_wrap_denotes"
   ],
   "note": "Stated against a separate specification of the WebAssembly binary format (SnapshotSpec.v); also the data, stack and export-wrapper frames. fewer than 2^28 globals; wag's GlobalType coding trusted."
  },
  {
   "property": "C25",
   "status": "proved",
   "theorems": [
    "snapshot_layout",
    "describes_cuts",
    "snapshot_chain",
    "snapshot_manifest_fields"
   ],
   "note": "image.Snapshot modelled line by line; file offsets, sizes, ranges and contents; histories by induction."
  },
  {
   "property": "C26",
   "status": "proved",
   "theorems": [
    "stack_export",
    "stack_import",
    "stack_roundtrip",
    "stack_import_sound"
   ],
   "note": "stack_export/stack_import/stack_roundtrip for all valid stacks; stack_import_sound for all byte strings."
  },
  {
   "property": "C27",
   "status": "proved",
   "theorems": [
    "instance_store_atomic",
    "instance_store_durable",
    "instance_removal_durable",
    "program_store_atomic",
    "program_store_durable"
   ],
   "note": "Byte-level model of files, directories and what a crash can lose; all histories of one instance amid others, and of storing a program. The operating system model is trusted (see DESIGN.md). Failing syncs and unlinks are C61."
  },
  {
   "property": "C28",
   "status": "proved",
   "theorems": [
    "stored_manifest_current",
    "manifest_changes_are_dirty",
    "setters_take_effect",
    "loaded_manifest_is_stored",
    "instance_manifest_fits",
    "instance_manifest_roundtrip"
   ],
   "note": "Includes the protobuf encoding of the instance manifest. Instances made by FinishInstance and changes after Store are C62."
  },
  {
   "property": "C29",
   "status": "partial",
   "theorems": [
    "entry_agree_partial",
    "entry_no_crash",
    "entry_named_exact",
    "entry_start_refuted",
    "entry_snapshot_refuted",
    "entry_wrapped_refuted"
   ],
   "note": "Agreement proved except in three cases, each refuted: _start export of unsuitable type, _start asked of a snapshot with wrapped exports, and wrapped exports without a stack."
  },
  {
   "property": "C30",
   "status": "partial",
   "theorems": [
    "server_exact_partial",
    "server_no_crash_partial",
    "server_no_leak_partial",
    "server_refcount_refuted"
   ],
   "note": "Reference counts, closing and absence of crashes proved for all histories in which no instance fails to start; when an instance fails to start the code drops a reference twice (server_refcount_refuted)."
  },
  {
   "property": "C31",
   "status": "proved",
   "theorems": [
    "server_isolated",
    "module_access",
    "module_supplied",
    "instance_access"
   ],
   "note": "All histories of any number of principals, including those with failures and shutdown."
  },
  {
   "property": "C32",
   "status": "proved",
   "theorems": [
    "lifecycle_right",
    "one_run",
    "ended_forever",
    "status_shown"
   ],
   "note": "All interleavings, including failures to start."
  },
  {
   "property": "C33",
   "status": "proved",
   "theorems": [
    "program_breakpoints_valid",
    "breakpoints_valid",
    "debug_request_exact",
    "breakpoint_limit"
   ],
   "note": "Set semantics for every history.  Crashes: C72."
  },
  {
   "property": "C34",
   "status": "proved",
   "theorems": [
    "exec_ids_distinct",
    "exec_request_reaches"
   ],
   "note": "Every interleaving, any process limit.  What the requests then do: C73."
  },
  {
   "property": "C35",
   "status": "proved",
   "theorems": [
    "exec_statuses_exact",
    "exec_dies_only_send",
    "exec_flush"
   ],
   "note": "Ring and main loop of executor.c; the kernel's answers (how much send accepted, events, wait statuses) are universally quantified labels. A blocking send is assumed never to answer EAGAIN."
  },
  {
   "property": "C36",
   "status": "proved",
   "theorems": [
    "serve_cases_exact",
    "kill_first_exact"
   ],
   "note": "All wait statuses and request states.  Whether that is what the program did: C74."
  },
  {
   "property": "C37",
   "status": "proved",
   "theorems": [
    "auth_exact",
    "auth_signed",
    "auth_absent",
    "auth_made_ed25519",
    "auth_made_local"
   ],
   "note": "JSON coding and Ed25519 verification are parameters of the model; base64url is modelled concretely. auth_made_* assume that the JSON and Ed25519 functions are inverse to those the client uses."
  },
  {
   "property": "C38",
   "status": "partial",
   "theorems": [
    "query_all_used",
    "query_spelled_works",
    "query_suspend_ignored_refuted"
   ],
   "note": "All method handlers of modules, sources and instances. Exact in both directions, except for the suspend action: it is accepted and ignored with other actions than launch (refuted claim); for module sources an error is responded and the call is made."
  },
  {
   "property": "C39",
   "status": "proved",
   "theorems": [
    "match_alias_spec",
    "compute_aliases_unambiguous",
    "context_contains_exact"
   ],
   "note": "Exact characterisation over every registration order.  Names without word characters: C75."
  },
  {
   "property": "C40",
   "status": "proved",
   "theorems": [
    "sshkeys_first_uid_kept",
    "sshkeys_authorized_only",
    "sshkeys_authorized_all",
    "sshkeys_conflict_rejected"
   ],
   "note": "What ssh.ParseAuthorizedKey (a dependency) finds in a file is a parameter (list of entries)."
  },
  {
   "property": "C41",
   "status": "proved",
   "theorems": [
    "referenced_file_open",
    "unreferenced_file_closed_once",
    "fileref_no_panic"
   ],
   "note": ""
  },
  {
   "property": "C42",
   "status": "proved",
   "theorems": [
    "write_at_exact",
    "write_vec_exact",
    "write_vec_finishes"
   ],
   "note": ""
  },
  {
   "property": "C43",
   "status": "proved",
   "theorems": [
    "distribution_exact",
    "distribution_member",
    "distribution_errors"
   ],
   "note": "Exact account of a request for every number of channels, readiness pattern and random choice.  Crashes: C76."
  },
  {
   "property": "C44",
   "status": "proved",
   "theorems": [
    "monitor_fanout",
    "monitor_counters"
   ],
   "note": "Every interleaving.  Crashes and blocking: C77."
  },
  {
   "property": "C45",
   "status": "proved",
   "theorems": [
    "import_accepted_exact",
    "import_random_exact"
   ],
   "note": "Every module name, field name and signature.  Crashes: C78."
  },
  {
   "property": "C46",
   "status": "proved",
   "theorems": [
    "time_mask_exact"
   ],
   "note": "Memory limits: C79."
  },
  {
   "property": "C47",
   "status": "partial",
   "theorems": [
    "io_input_preserved_partial",
    "io_input_single_pending",
    "io_input_preserved_refuted",
    "io_input_partial_read_refuted"
   ],
   "note": "Proved when the program has read a multiple of 8 bytes and pending packets are aligned (always if at most one is pending); refuted otherwise: pending packets are concatenated without padding."
  },
  {
   "property": "C48",
   "status": "proved",
   "theorems": [
    "serve_routing"
   ],
   "note": ""
  },
  {
   "property": "C49",
   "status": "partial",
   "theorems": [
    "discover_only_discoverable_partial",
    "undiscoverable_refuted",
    "undiscoverable_twice_refuted"
   ],
   "note": "Holds for discovery; refuted through suspension and resumption (or an uploaded snapshot)."
  },
  {
   "property": "C50",
   "status": "partial",
   "theorems": [
    "suspend_during_call_refuted",
    "suspend_stops_partial",
    "origin_suspend_deadlock_refuted",
    "origin_suspend_finishes_partial"
   ],
   "note": "Refuted: a reply in flight blocks the suspension until the context is cancelled (catalog, identity and origin services); proved otherwise."
  },
  {
   "property": "C51",
   "status": "partial",
   "theorems": [
    "origin_maxconns_refuted"
   ],
   "note": "Refuted: Config.MaxConns is never consulted. Nothing is proved in the positive direction."
  },
  {
   "property": "C52",
   "status": "partial",
   "theorems": [
    "debug_running_unchanged_partial",
    "debug_running_refuted"
   ],
   "note": "Refuted: a rebuild started before the instance was resumed is applied to the running instance."
  },
  {
   "property": "C53",
   "status": "proved",
   "theorems": [
    "prepared_accounted",
    "prepared_in_order",
    "prepared_none_leaked",
    "prepared_ends",
    "prepare_bufsize"
   ],
   "note": "A nonpositive buffer size crashes (prepare_bufsize)."
  },
  {
   "property": "C54",
   "status": "proved",
   "theorems": [
    "run_states_exact"
   ],
   "note": "Exact.  Agreement with the image: C80."
  },
  {
   "property": "C55",
   "status": "partial",
   "theorems": [
    "auth_nonce_reuse",
    "auth_nonce_once_partial",
    "auth_nonce_once_refuted"
   ],
   "note": "Full statement fails: auth_nonce_once_refuted (the nonce row of an expiring token is deleted between the expiration check and the nonce check when the second changes). Proved: reuse only after the first token expired; single use when both clock readings of a request fall in the same second."
  },
  {
   "property": "C56",
   "status": "partial",
   "theorems": [
    "auth_crash_exact",
    "auth_always_answers_refuted"
   ],
   "note": "Refuted: an EdDSA header without jwk dereferences nil. auth_crash_exact shows that this is the only crash."
  },
  {
   "property": "C57",
   "status": "proved",
   "theorems": [
    "principal_id_roundtrip"
   ],
   "note": "Uniqueness: C81."
  },
  {
   "property": "C58",
   "status": "partial",
   "theorems": [
    "load_buffers_refuted"
   ],
   "note": "The code does not satisfy it: proved that for every non-empty buffer set LoadBuffers never returns the buffers, and fails when the recorded header length is at most 100 (server start-up then fails). The empty case returns empty buffers by definition."
  },
  {
   "property": "C59",
   "status": "partial",
   "theorems": [
    "stack_import_crash_refuted",
    "stack_import_entry_crash_refuted",
    "stack_import_crash_partial",
    "stack_init_refuted"
   ],
   "note": "False in full (stack_import_crash_refuted, stack_import_entry_crash_refuted: 8 bytes crash the server; stack_init_refuted: the stack of an unstarted instance's snapshot is rejected by every module). Proved: nothing but stacks truncated inside their last frame crash."
  },
  {
   "property": "C60",
   "status": "partial",
   "theorems": [
    "lifecycle_crash",
    "resume_failed_refuted",
    "wait_new_refuted",
    "wait_race_refuted",
    "debug_gone_refuted",
    "resume_function_refuted"
   ],
   "note": "The only possible crashes are characterised (lifecycle_crash); the other parts are refuted by witnesses."
  },
  {
   "property": "C61",
   "status": "partial",
   "theorems": [
    "instance_store_atomic",
    "store_retry_refuted",
    "store_failure_then_start_refuted",
    "begin_retry_refuted"
   ],
   "note": "Failing writes and links are harmless (instance_store_atomic allows them). Refuted: after a failed fdatasync of the file a second Store succeeds without the manifest on disk; after a failed fdatasync of the directory, or a failed unlink, the instance can be started while it is still in the directory, and a crash finds it half mutated."
  },
  {
   "property": "C62",
   "status": "partial",
   "theorems": [
    "stored_manifest_current",
    "program_store_atomic",
    "built_instance_store_refuted",
    "oversized_manifest_refuted",
    "oversized_program_refuted",
    "set_after_store_not_stored_refuted"
   ],
   "note": "Proved for instances of NewInstance and LoadInstance with manifests that callers allow (C28), and for programs whose manifest fits. Refuted: an instance of FinishInstance is stored without a manifest; manifests over 4088 bytes (program with many exports) are stored and never load; changes made after Store are not stored and Store refuses."
  },
  {
   "property": "C63",
   "status": "proved",
   "theorems": [
    "upload_accepts_exactly",
    "upload_finishes_text_once",
    "upload_never_panics"
   ],
   "note": "Loader table and its replacement order modelled; iff against an independent grammar.  The compiler's section reading and breakpoint setting (wag) are trusted models."
  },
  {
   "property": "C64",
   "status": "partial",
   "theorems": [
    "snapshot_layout",
    "snapshot_chain",
    "snapshot_without_table_refuted",
    "snapshot_without_exports_refuted",
    "snapshot_of_snapshot_refuted",
    "snapshot_init_stack_refuted",
    "snapshot_of_wrapped_upload_refuted"
   ],
   "note": "True for the programs of C25 (snapshot_layout, snapshot_chain).  Refuted otherwise: no table section or no export section (nil dereference), the program object just returned by a snapshot (nil start section entry, until reloaded from storage), an uploaded wrapped module (FinishProgram does not record the wrapper: module corrupted), a suspended instance that has not run (24 bytes of stack claimed, zeros stored)."
  },
  {
   "property": "C65",
   "status": "partial",
   "theorems": [
    "early_breakpoints_exist_partial",
    "breakpoints_exist_refuted"
   ],
   "note": "Holds if the gate.snapshot section precedes the code section (early_breakpoints_exist_partial).  Refuted otherwise: the section is accepted between the code and data sections too, after breakpoints have been set and verified."
  },
  {
   "property": "C66",
   "status": "partial",
   "theorems": [
    "packet_split_short_is_empty_refuted"
   ],
   "note": "Refuted: leftover bytes stay in the second part."
  },
  {
   "property": "C67",
   "status": "partial",
   "theorems": [
    "read_stream_panics_only_on_large_subscription",
    "read_stream_suspend_total_refuted",
    "stream_state_marshal_total_refuted",
    "write_stream_cheater_suspend_refuted"
   ],
   "note": "Only subscriptions of 2^31 bytes or more crash a read stream's suspension (read_stream_panics_only_on_large_subscription). Refuted by them, and by a program that exceeds its grant on a write stream."
  },
  {
   "property": "C68",
   "status": "partial",
   "theorems": [
    "read_stream_packet_limit_refuted"
   ],
   "note": "Refuted: states holding more than MaxSendSize-16 bytes are accepted and sent in one packet (which runtime/io.go:309-312 panics on)."
  },
  {
   "property": "C69",
   "status": "partial",
   "theorems": [
    "write_stream_cheater_rejected_refuted"
   ],
   "note": "Refuted: the excess is accepted while the buffer has room."
  },
  {
   "property": "C70",
   "status": "partial",
   "theorems": [
    "discovery_no_panic",
    "discovery_snapshot_refuted"
   ],
   "note": "Refuted: a snapshot with more than 256 services is accepted, and any request of the program then crashes the server (negative slice length).  Up to 256 services: discovery_no_panic."
  },
  {
   "property": "C71",
   "status": "partial",
   "theorems": [
    "origin_streams_kept_in_shutdown_partial",
    "origin_suspend_panic_refuted",
    "origin_live_stream_lost_refuted"
   ],
   "note": "Streams are kept while the service is shutting down (origin_streams_kept_in_shutdown_partial).  Refuted: suspension panics with a subscription of 2^31 bytes or more; restored live streams can be dropped by the next suspension."
  },
  {
   "property": "C72",
   "status": "partial",
   "theorems": [
    "debug_ordinary_program_refuted",
    "debug_no_config_refuted",
    "debug_no_panic_partial"
   ],
   "note": "Refuted: changing the configuration of an instance of a non-snapshot program, or omitting the configuration, crashes the server.  Nothing else does, apart from the unimplemented operations (debug_no_panic_partial)."
  },
  {
   "property": "C73",
   "status": "partial",
   "theorems": [
    "exec_quiet_safe_partial",
    "exec_first_safe_partial",
    "exec_dies_refuted",
    "exec_wrong_kill_refuted",
    "exec_wrong_death_refuted",
    "exec_cancel_leaks_refuted"
   ],
   "note": "Proved for histories in which ids are quiet when reused, in particular up to the process limit.  Refuted otherwise, for every process limit: early id reuse brings down the executor, kills the wrong process, or makes the receiver panic; cancelled creations leak ids."
  },
  {
   "property": "C74",
   "status": "partial",
   "theorems": [
    "ending_reported_partial",
    "grow_failure_refuted",
    "exit_100_refuted",
    "kill_after_suspend_refuted"
   ],
   "note": "All endings but one are reported truthfully (ending_reported_partial).  Refuted: on x86-64 the failure to grow memory is reported as success; exit code 100 is reported as success; a kill request after a suspension request is forgotten."
  },
  {
   "property": "C75",
   "status": "partial",
   "theorems": [
    "full_name_granted_partial",
    "full_name_granted_refuted"
   ],
   "note": "Proved for names with a word character.  Refuted: a registered name such as \"--\" granted by its full name is taken for the alias of another one."
  },
  {
   "property": "C76",
   "status": "partial",
   "theorems": [
    "distribution_crash_refuted",
    "distribution_no_crash_partial"
   ],
   "note": "Refuted for any number of executors but one: the position removed from the list of untried channels is the channel index.  No crash if the first polls find processes."
  },
  {
   "property": "C77",
   "status": "partial",
   "theorems": [
    "monitor_crash_partial",
    "monitor_counted_refuted",
    "monitor_unsubscribe_refuted",
    "monitor_call_stuck_refuted",
    "monitor_subscriber_stuck_refuted"
   ],
   "note": "The crashes are characterised (monitor_crash_partial).  Refuted: the first counted event crashes the server (the state is never allocated); unsubscribing a cut-off subscriber may crash it; a call that finds the buffer full may never return; a subscriber that stops waiting blocks the monitor for ever."
  },
  {
   "property": "C78",
   "status": "partial",
   "theorems": [
    "import_crash_refuted"
   ],
   "note": "Refuted: importing WASI fd_allocate (the table names a library function that does not exist), or a gate fd_/io_ field with a malformed or too small number, crashes the server."
  },
  {
   "property": "C79",
   "status": "partial",
   "theorems": [
    "memory_known_partial",
    "memory_upload_partial",
    "memory_paths_agree_partial",
    "memory_policy_refuted",
    "memory_truncated_refuted",
    "memory_negative_refuted"
   ],
   "note": "Proved for policies of whole pages below 4 GB. Refuted: a policy limit which is not whole pages is exceeded on upload; limits of 4 GB or more are truncated to 32 bits; negative ones become huge."
  },
  {
   "property": "C80",
   "status": "partial",
   "theorems": [
    "status_agrees_partial",
    "status_disagrees_refuted",
    "status_unstored_refuted"
   ],
   "note": "Proved for runs without internal failures.  Refuted: after an inconsistent state or a storage failure the instance is killed while its image says the program terminated normally, or was suspended."
  },
  {
   "property": "C81",
   "status": "partial",
   "theorems": [
    "principal_string_unique_refuted",
    "principal_account_unique_refuted"
   ],
   "note": "Refuted: four strings per key (unused bits of the last base64 character), and the local principal shares its account with the all-zero key."
  },
  {
   "property": "C82",
   "status": "proved",
   "theorems": [
    "layout_disjoint",
    "layout_total"
   ],
   "note": "Address selection and the loader's mappings; page rounding by the kernel is part of the specification.  The 8 GB window is stated for globals of at most one page."
  },
  {
   "property": "C83",
   "status": "proved",
   "theorems": [
    "seccomp_x86_64_exact"
   ],
   "note": "The filter program is run by a model of the kernel's BPF interpreter.  The upper half of the protection argument is not examined by the filter (nor does the specification restrict it)."
  },
  {
   "property": "C84",
   "status": "partial",
   "theorems": [
    "seccomp_aarch64_exact_partial",
    "seccomp_aarch64_refuted",
    "seccomp_compat_refuted",
    "seccomp_android_refuted"
   ],
   "note": "Refuted: on AArch64 the last jump lands on a comparison instead of the kill instruction, so that number 3 (io_cancel) is allowed, and nothing else (seccomp_aarch64_exact_partial); on x86-64 the filter ignores the architecture, so that the 32-bit calls 3, 15, 231, 271 (read, chmod, fgetxattr, utimes) are allowed; on Android the size check is vacuous and number 0 is allowed."
  },
  {
   "property": "C85",
   "status": "proved",
   "theorems": [
    "code_stays_immutable",
    "code_is_executable"
   ],
   "note": "x86-64 and AArch64."
  },
  {
   "property": "C86",
   "status": "proved",
   "theorems": [
    "info_received",
    "start_received",
    "start_routine_exact"
   ],
   "note": "Encoding of the message, decoding by byte offsets of the packed C struct, initial stack."
  },
  {
   "property": "C87",
   "status": "partial",
   "theorems": [
    "fd_write_gate",
    "fd_write_other",
    "fd_write_success_refuted",
    "fd_write_bounds_refuted"
   ],
   "note": "Proved for memories under 4 GiB and total lengths under 2^32.  Refuted: a fully accepted empty write returns EAGAIN; with the maximum memory size of 65536 pages every buffer is out of bounds."
  },
  {
   "property": "C88",
   "status": "proved",
   "theorems": [
    "fd_write_debug"
   ],
   "note": "The kernel is assumed not to answer a nonempty write with 0."
  },
  {
   "property": "C89",
   "status": "proved",
   "theorems": [
    "fd_read_gate",
    "fd_read_other"
   ],
   "note": "For vectors that don't overlap the vector list itself."
  },
  {
   "property": "C90",
   "status": "proved",
   "theorems": [
    "io_transfers"
   ],
   "note": "Stated with the preceding wait as a separate step."
  },
  {
   "property": "C91",
   "status": "partial",
   "theorems": [
    "poll_oneoff_events",
    "poll_oneoff_returns_refuted",
    "poll_oneoff_type_refuted"
   ],
   "note": "Proved: poll_oneoff_events.  Refuted: it waits for the peer even though a subscription (standard output) is ready from the start; the type of an event about a bad descriptor is not stored."
  },
  {
   "property": "C92",
   "status": "proved",
   "theorems": [
    "random_get_fresh"
   ],
   "note": ""
  },
  {
   "property": "C93",
   "status": "proved",
   "theorems": [
    "environ_sizes",
    "environ_strings",
    "fd_number"
   ],
   "note": ""
  },
  {
   "property": "C94",
   "status": "proved",
   "theorems": [
    "proc_exit_status"
   ],
   "note": ""
  },
  {
   "property": "C95",
   "status": "partial",
   "theorems": [
    "fd_close_stops",
    "fd_renumber_stops",
    "fd_rights_stops",
    "clock_time",
    "poll_clock_stops",
    "proc_raise_stops_refuted"
   ],
   "note": "Clock subscription is proved for the first subscription and a program that isn't resumed.  Refuted for proc_raise, which returns success after resumption."
  },
  {
   "property": "C96",
   "status": "partial",
   "theorems": [
    "fdstat_get",
    "rights_enforced",
    "stubs",
    "no_args",
    "filestat_size_refuted"
   ],
   "note": "Refuted for fd_filestat_get: half of the size field is left as it was."
  },
  {
   "property": "C97",
   "status": "proved",
   "theorems": [
    "time_given"
   ],
   "note": "About the instructions of runtime.S as parsed by tools/asm2coq.py.  The C function obeys the calling convention (clock_returns)."
  },
  {
   "property": "C98",
   "status": "proved",
   "theorems": [
    "guest_clock_never_goes_back",
    "policy_masks"
   ],
   "note": "No wrap-around of the 64-bit nanosecond count; hosts' clocks don't go backwards.  policy_masks: every configured resolution gives a mask for which it holds."
  },
  {
   "property": "C99",
   "status": "proved",
   "theorems": [
    "return_exits",
    "stack_exhausted_exits",
    "trap_code_exits",
    "stop_exits",
    "fault_exits"
   ],
   "note": "The guest's resume routine is assumed to return (resume_returns).  If the clock can't be read, the status is 9 instead."
  }
 ]
}