(* EventLog.v: model of server/monitorutil.go, and of the monitor that gate-server is made with (cmd/gate-server/main/servercmd.go:222-236, 250-256;
   server/server.go:74-76).  Simplified: an event is its type and its contents, an error and a log line are bytes; the formatting of lines is abstract. *)
From Verif Require Export ServerStart.

(* server/event/event.proto:15-45: the types' numbers *)
Definition FAIL_INTERNAL : Z := 0.
Definition INSTANCE_DEBUG : Z := 28.
Record event := Ev { e_type : Z; e_text : bytes }.
Inductive sink := ErrorLog | InfoLog | DefaultLog | Page.
(* What a monitor function does with an event and an error *)
Definition monitor := event -> option bytes -> list (sink * event * option bytes).
(* monitorutil.go:36-44 ErrorEventLogger, 48-54 ErrorLogger, 14-22 defaultMonitor, 25-31 MultiMonitor *)
Definition error_event_logger (errors infos : sink) : monitor := fun e err => if e_type e <=? FAIL_INTERNAL then [(errors, e, err)] else [(infos, e, err)].
Definition error_logger (errors : sink) : monitor := fun e err => if e_type e <=? FAIL_INTERNAL then [(errors, e, err)] else [].
Definition multi_monitor (l : list monitor) : monitor := fun e err => flat_map (fun f => f e err) l.
Definition page_monitor : monitor := fun e err => [(Page, e, err)].          (* monitor.go: Monitor.v *)
Definition default_monitor : monitor := error_logger DefaultLog.
(* servercmd.go:228-234, 250-256.  (If not to syslog, both logs are the standard error.) *)
Definition gate_server_monitor (verbose : bool) (c : config) : monitor :=
  let m := if verbose then error_event_logger ErrorLog InfoLog else error_logger ErrorLog in
  if negb (is_empty (monitor_addr c)) then multi_monitor [m; page_monitor] else m.
(* server.go:74-76; None is nil *)
Definition server_monitor (m : option monitor) : monitor := match m with Some m => m | None => default_monitor end.
(* The history of a server's events *)
Definition observe (m : monitor) (h : list (event * option bytes)) : list (sink * event * option bytes) := flat_map (fun x => m (fst x) (snd x)) h.
