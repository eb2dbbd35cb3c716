(* ServerStart.v: model of how gate-server starts: cmd/gate-server/main/servercmd.go:245-510 main2, and runtime/process distribution only by its count.
   Simplified: of the configuration, what decides the sequence of operations; preparing (284-291, 328-333), sources (383-391), the origins of requests and the
   ACME client appear elsewhere or not at all; closing doesn't fail. *)
From Verif Require Export Webmonitor.

Inductive storage := Memory | Filesystem | UnknownStorage.
Inductive policy := Public | Ssh | UnknownPolicy.
Record config := Config {
  monitor_addr : bytes;                        (* Monitor.HTTP.Addr *)
  monitor_origins : option (list bytes);       (* Monitor.HTTP.Origins *)
  executors : nat;                             (* Runtime.ExecutorCount *)
  var_dir : bool;                              (* Image.VarDir isn't empty *)
  programs : storage; instances : storage;     (* Image.ProgramStorage, InstanceStorage *)
  access : policy;                             (* Access.Policy *)
  keys_file : bool;                            (* Access.SSH.AuthorizedKeys isn't empty *)
  authority : bool;                            (* HTTP.Authority isn't empty *)
  access_db : bool;                            (* HTTP.AccessDB isn't "none" *)
  access_log : bool;                           (* HTTP.AccessLog isn't empty *)
  snide : bool; tls : bool;                    (* HTTP.Net is "snide"; HTTP.TLS.Enabled *)
  accept_tos : bool }.                         (* ACME.AcceptTOS *)

(* What the server does.  ListenMonitor, ListenAcme: opening the sockets; ServeMonitor, ServeAcme, Serve: requests are handled from then on *)
Inductive operation :=
  ListenMonitor | ServeMonitor | NewExecutor (i : nat) | OpenFilesystem | FindHome | ParseKeys | SplitAddr | OpenDB | NewServer | NewHandler | OpenLog
| Listen | ListenAcme | ServeAcme | ClearCaps | NotifyReady | Serve | CloseListener | CloseLog | CloseDB | CloseFilesystem.
Inductive instr := Try (o : operation) | Require (b : bool) | Defer (o : operation).
Definition if_ (b : bool) (l : list instr) : list instr := if b then l else [].
Definition is_empty (t : bytes) : bool := match t with [] => true | _ => false end.
Definition known (s : storage) : bool := match s with UnknownStorage => false | _ => true end.

(* servercmd.go:245-510 main2; web.NewHandler panics without origins (Cors.v), which counts as its failure *)
Definition main2 (c : config) : list instr :=
  if_ (negb (is_empty (monitor_addr c))) [Try ListenMonitor; Try ServeMonitor]                         (* 250-268 *)
  ++ map (fun i => Try (NewExecutor i)) (seq 0 (executors c))                                           (* 275-282 *)
  ++ if_ (var_dir c) [Try OpenFilesystem; Defer CloseFilesystem]                                        (* 295-302 *)
  ++ [Require (known (programs c)); Require (known (instances c))]                                      (* 306-326 *)
  ++ match access c with                                                                                (* 337-365 *)
     | Public => []
     | Ssh => if_ (negb (keys_file c)) [Try FindHome] ++ [Try ParseKeys]
     | UnknownPolicy => [Require false]
     end
  ++ if_ (negb (authority c)) [Try SplitAddr]                                                           (* 367-372 *)
  ++ if_ (access_db c) [Try OpenDB; Defer CloseDB]                                                      (* 374-381 *)
  ++ [Try NewServer; Try NewHandler]                                                                    (* 402-406 *)
  ++ if_ (access_log c) [Try OpenLog; Defer CloseLog]                                                   (* 408-416 *)
  ++ if_ (snide c) [Require (tls c)]                                                                    (* 419-422 *)
  ++ [Try Listen; Defer CloseListener]                                                                  (* 418-430 *)
  ++ if_ (tls c) [Require (accept_tos c); Try ListenAcme; Try ServeAcme]                                (* 465-500 *)
  ++ [Try ClearCaps; Try NotifyReady; Try Serve].                                                       (* 502-510 *)

(* Running: what has been done, and the deferred calls (the last one first).  w: whether an operation succeeds (a failure is followed by the return). *)
Fixpoint run (w : operation -> bool) (l : list instr) (defers : list operation) : list (operation * bool) :=
  match l with
  | [] => map (fun o => (o, true)) defers
  | Try o :: t => (o, w o) :: if w o then run w t defers else map (fun o => (o, true)) defers
  | Require b :: t => if b then run w t defers else map (fun o => (o, true)) defers
  | Defer o :: t => run w t (o :: defers)
  end.
(* (errors of 503-508 are fatal without the deferred calls; they're as if the return)  Starting a goroutine doesn't fail, nor does Serve start failing *)
Definition start (w : operation -> bool) (c : config) : list (operation * bool) :=
  run (fun o => match o with ServeMonitor | ServeAcme | Serve => true | _ => w o end) (main2 c) [].

(* ---- The monitor page (251-253) ---- *)
Fixpoint has_prefix (p t : bytes) : bool :=
  match p, t with [], _ => true | a :: p, b :: t => (a =? b) && has_prefix p t | _, [] => false end.
Definition localhost_ : bytes := [108;111;99;97;108;104;111;115;116;58].   (* "localhost:" *)
Definition http_ : bytes := [104;116;116;112;58;47;47].                    (* "http://" *)
Definition page_origins (c : config) : option (list bytes) :=
  match monitor_origins c with
  | None => if has_prefix localhost_ (monitor_addr c) then Some [http_ ++ monitor_addr c] else None
  | x => x
  end.
(* ---- Storages (303-335): the storage is a nil pointer if it's the filesystem and there's none ---- *)
Definition usable (s : storage) (c : config) : bool := match s with Filesystem => var_dir c | _ => true end.
