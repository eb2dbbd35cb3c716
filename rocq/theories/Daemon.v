(* Daemon.v: model of cmd/gate-daemon/main/daemoncmd.go: the D-Bus methods' shared variables, ownership of the file descriptors
   that are passed to them (with server/instance.go's ownership of the debug log), and the static HTTP handler.
   Each D-Bus call is handled in a goroutine of its own. *)
From Verif Require Export Base Scope.
From Coq Require Export String Ascii.

(* ---- The variables that the methods share: ctx, initedServer, inited (daemoncmd.go:249-264) ---- *)

(* How far a call has got.  scope: None if the method has no scope parameter.
   PIdle: called; PComputed: gatescope.Context returned, but not assigned to ctx; PServer: ctx assigned, s called; PReceive: about to
   receive from inited; PReceived: received, not assigned to initedServer; PClear: about to assign nil to inited; PCheck: about to
   check initedServer again; PHave: s returned; PRun: the server's method was called with this scope; PAbort: panicked *)
Inductive pc :=
| PIdle (scope : option (list str)) | PComputed (ctx : option (list str)) (layers : nat) | PServer | PReceive | PReceived (v : bool) | PClear | PCheck
| PHave | PRun (ctx : option (list str)) | PAbort.
Record dstate := DS {
  d_ctx : option (list str);  (* the scope in ctx *)
  d_layers : nat;             (* values that have been added to ctx *)
  d_chan : nat;               (* servers in the channel inited *)
  d_closed : bool;            (* the channel has been closed *)
  d_server : bool;            (* initedServer is not nil *)
  d_inited : bool;            (* inited is not nil *)
  d_pc : nat -> pc }.
Definition set_pc (s : dstate) (t : nat) (p : pc) : dstate :=
  DS (d_ctx s) (d_layers s) (d_chan s) (d_closed s) (d_server s) (d_inited s) (fun u => if Nat.eqb u t then p else d_pc s u).

(* scope.go:76-90 Context adds a value unless there is no scope at all *)
Definition layers_of (ctx : option (list str)) (scope : list str) (n : nat) : nat :=
  match scope, ctx with [], None => n | _, _ => S n end.
(* A step of a call; None: it can't continue now.  names: the registered scopes.
   daemoncmd.go:265-504: the methods; the argument ctx is read after s has returned (Go leaves the order open). *)
Definition step_call (names : list str) (s : dstate) (t : nat) : option dstate :=
  match d_pc s t with
  | PIdle None => Some (set_pc s t PServer)
  | PIdle (Some scope) => Some (set_pc s t (PComputed (Context names (d_ctx s) scope) (layers_of (d_ctx s) scope (d_layers s))))
  | PComputed c n => let s := set_pc s t PServer in Some (DS c n (d_chan s) (d_closed s) (d_server s) (d_inited s) (d_pc s))
  (* daemoncmd.go:250-264: s *)
  | PServer => Some (set_pc s t (if d_server s then PHave else if d_inited s then PReceive else PCheck))
  | PReceive => match d_chan s with
                | S n => let s := set_pc s t (PReceived true) in Some (DS (d_ctx s) (d_layers s) n (d_closed s) (d_server s) (d_inited s) (d_pc s))
                | O => if d_closed s then Some (set_pc s t (PReceived false)) else None
                end
  | PReceived v => let s := set_pc s t PClear in Some (DS (d_ctx s) (d_layers s) (d_chan s) (d_closed s) v (d_inited s) (d_pc s))
  | PClear => let s := set_pc s t PCheck in Some (DS (d_ctx s) (d_layers s) (d_chan s) (d_closed s) (d_server s) false (d_pc s))
  | PCheck => Some (set_pc s t (if d_server s then PHave else PAbort))
  | PHave => Some (set_pc s t (PRun (d_ctx s)))
  | PRun _ | PAbort => None
  end.
(* What happens: a step of a call; the main goroutine sends the server (daemoncmd.go:223), closes the channel when it returns (:166) *)
Inductive devent := Step (t : nat) | Init | Shutdown.
Definition dstep (names : list str) (s : dstate) (e : devent) : dstate :=
  match e with
  | Step t => match step_call names s t with Some s' => s' | None => s end
  | Init => if d_closed s then s else DS (d_ctx s) (d_layers s) (S (d_chan s)) (d_closed s) (d_server s) (d_inited s) (d_pc s)
  | Shutdown => DS (d_ctx s) (d_layers s) (d_chan s) true (d_server s) (d_inited s) (d_pc s)
  end.
Definition drun (names : list str) (s : dstate) (l : list devent) : dstate := fold_left (dstep names) l s.
(* calls: the calls that are made, at whatever time their first steps are *)
Definition dinit (calls : nat -> option (list str)) : dstate := DS None 0 0 false false true (fun t => PIdle (calls t)).

(* ---- Files ---- *)
(* The debug log of an instance, in the order of what's done to the instance.  Logs are numbered.
   server/instance.go:112-147 newInstance, 154-216 startOrAnnihilate and stop, 342-355 _doResume *)
Record inst := Inst { i_log : option nat; i_running : bool; i_closed : list nat }.
Definition closing (l : option nat) (closed : list nat) : list nat := match l with Some n => closed ++ [n] | None => closed end.
(* instance.go:209-225 stop *)
Definition stop (i : inst) : inst := Inst None false (closing (i_log i) (i_closed i)).
Inductive iop :=
| ILaunch (log : option nat) (suspend start_ok : bool)  (* newInstance and startOrAnnihilate *)
| IResume (log : option nat) (check_ok start_ok : bool)  (* ResumeInstance; on failed check the caller closes the log (InvokeOptions.Close) *)
| IStop.                                                (* the program stopped (drive) *)
Definition iop_step (i : inst) (o : iop) : inst :=
  match o with
  | ILaunch log suspend ok =>
      if suspend then Inst log false (i_closed i)
      else if ok then Inst log true (i_closed i) else stop (Inst log true (i_closed i))
  | IResume log check ok =>
      if i_running i then Inst (i_log i) true (closing log (i_closed i))
      else if negb check then Inst (i_log i) false (closing log (i_closed i))
      else if ok then Inst log true (i_closed i) else stop (Inst log true (i_closed i))
  | IStop => if i_running i then stop i else i
  end.
Definition ihistory (l : list iop) : inst := fold_left iop_step l (Inst None false []).

(* The files that are passed with a call *)
Inductive fd := FSuspend | FR | FW | FDebug | FModule.
(* The module: by id, a regular file, or another one (such as a pipe) with the result of reading it *)
Inductive modfile := MId | MRegular | MOther (read_ok : bool).
(* What becomes of the server's method: failure before or after the instance took the log, success *)
Inductive launched := LFail | LFailTaken | LOk.
(* daemoncmd.go:775-784 invokeOptions: what's closed, whether the log is open *)
Definition invokeOptions (logging : bool) : list fd * bool := if logging then ([], true) else ([FDebug], false).
(* daemoncmd.go:610-635 doLaunch, 755-773 moduleUpload; the files that have been closed when it returns or panics, whether it returned, and
   whether the instance has the log.  The server closes the upload's stream, or upload.Close does (UploadProps.v, C122). *)
Definition doLaunch (m : modfile) (logging : bool) (l : launched) : list fd * bool * bool :=
  let ' (closed, open) := invokeOptions logging in
  match m with
  | MOther false => (closed ++ (if open then [FDebug] else []), false, false)
  | _ =>
      let closed := closed ++ match m with MRegular => [FModule] | _ => [] end in
      match l with
      | LFail => (closed ++ (if open then [FDebug] else []), false, false)
      | LFailTaken => (closed ++ (if open then [FDebug] else []), false, false)  (* by stop *)
      | LOk => (closed, true, open)
      end
  end.
(* daemoncmd.go:558-608 doCall, when it has returned or panicked, the instance has been stopped, and the client has closed the suspend
   descriptor's other end or written to it.  The deferred functions are in reverse order. *)
Definition doCall (m : modfile) (logging : bool) (l : launched) : list fd :=
  let ' (closed, ok, log) := doLaunch m logging l in
  if ok then closed ++ (if log then [FDebug] else []) ++ [FW; FR; FSuspend] else closed ++ [FW; FR; FSuspend].

(* ---- Static files: daemoncmd.go:818-866 newStaticHTTPHandler.  None: nothing is served; the status. ---- *)
Local Open Scope string_scope.
Fixpoint strip_prefix (d path : string) {struct d} : option string :=
  match d with
  | EmptyString => Some path
  | String c d' => match path with EmptyString => None | String c' path' => if Ascii.eqb c c' then strip_prefix d' path' else None end
  end.
Fixpoint has_slash (s : string) : bool :=
  match s with EmptyString => false | String c EmptyString => Ascii.eqb c "047"%char | String _ t => has_slash t end.
Inductive served := Status (code : Z) | File (name : string).
Definition staticHandler (pattern path origin : string) (r_origin r_method r_path : string) : served :=
  if negb (String.eqb r_origin "") && negb (String.eqb r_origin origin) then Status 403
  else if negb (String.eqb r_method "GET" || String.eqb r_method "HEAD") then Status 405
  else if has_slash pattern then
    match strip_prefix pattern r_path with
    | None => Status 404
    | Some rest => let file := (path ++ rest)%string in File (if has_slash file then (file ++ "index.html")%string else file)
    end
  else if String.eqb r_path pattern then File path else Status 404.
