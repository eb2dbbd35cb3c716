(* LocalClient.v: model of the command line client's use of the local daemon (cmd/gate/main/local.go, debug.go) and of the daemon's D-Bus
   methods (cmd/gate-daemon/main/daemoncmd.go:279-503): which method is called with which arguments, what the method asks of the server,
   and whether the reply's values have the types which the client stores them in.
   D-Bus itself (github.com/godbus/dbus) is modelled so: a call reaches the method of its name if the values have the parameters' types in the
   parameters' order, and an error reply or a reply with values of other types makes the client's check fail.
   Left out: the context shared by the methods and closing of files (see Daemon.v), the usage checks of command lines, and printing. *)
From Verif Require Export Client.

Record lconfig := LConfig { base : config; scope_ : list string }.

(* What a file descriptor refers to: the pipe that gets a byte after SIGQUIT, the client's standard streams (or a copying pipe), the debug log (or /dev/null),
   the content of a file or of a download, a pipe that the client reads the module from, and the pipes of the interpreter *)
Inductive file := Quit | Stdin | Stdout | DebugLog | Content (name : string) | Fetched (module_ : string) | Sink | Typed | Shown.
(* api/grpc: DebugRequest; addr and size are never set by the client *)
Inductive debugop := ConfigGet | ConfigSet | ConfigUnion | ConfigComplement | ReadGlobals | ReadMemory | ReadStack.
Record debugreq := DReq { d_op : debugop; d_info : bool; d_breakpoints : list Z }.
Inductive value := VStr (s : string) | VStrs (l : list string) | VBool (b : bool) | VInt64 (n : Z) | VReq (r : debugreq) | VFD (f : file).
Inductive ty := TStr | TStrs | TBool | TInt64 | TInt32 | TBytes | TFD.
Definition typeof (v : value) : ty :=
  match v with VStr _ => TStr | VStrs _ => TStrs | VBool _ => TBool | VInt64 _ => TInt64 | VReq _ => TBytes | VFD _ => TFD end.

(* debug.go:142-174: an offset, or a function's name or line of a file *)
Inductive location := Offset (n : Z) | Named (s : string).
(* debug.go:64-97 *)
Inductive dcmd := DShow | DBreak (l : list location) | DDeleteBreak (l : list location) | DDetach | DBacktrace | DDumpText.
(* local.go:51-478 *)
Inductive lcmd :=
| LCall (arg : string) (function : option string)
| LDebug (inst : string) (d : dcmd)
| LDelete (inst : string)
| LExport (m : string)
| LImport (name : string) (tags : list string)
| LInstances_
| LIO (inst : string)
| LKill (inst : string)
| LLaunch (arg : string) (function : option string) (tags : list string)
| LModules_
| LPin (m : string) (tags : list string)
| LPull (m : string)
| LPush (m : string)
| LREPL (inst : string)
| LResume (inst : string) (function : option string)
| LShow (m : string)
| LSnapshot (inst : string) (tags : list string)
| LStatus (inst : string)
| LSuspend (inst : string)
| LUnpin (m : string)
| LUpdate (inst : string) (tags : list string)
| LWait (inst : string)
| LScope.

(* What the client learns while it runs: the ids in a listing, the debugged instance's module, the text addresses of named locations, the sizes of
   files, and the content length that another server told (None: it didn't) *)
Record told := Told { t_ids : list string; t_module : string; t_resolve : string -> list Z; t_size : string -> Z; t_length : option Z }.

(* A call: the method, the arguments, and the types of the variables for the reply's values *)
Record dcall := DCall { method_ : string; args : list value; stores : list ty }.

(* local.go:504-513 *)
Definition getInstanceInfo (i : string) : dcall := DCall "GetInstanceInfo" [VStr i] [TInt32; TInt32; TInt32; TStrs].
(* local.go:515-521 *)
Definition waitInstance (i : string) : dcall := DCall "WaitInstance" [VStr i] [TInt32; TInt32; TInt32].
(* local.go:523-529 *)
Definition instanceWaiter (c : lconfig) (m i : string) : list dcall := DCall m [VStr i] [] :: if wait_ (base c) then [waitInstance i] else [].
(* debug.go:309-326; method: "Download" *)
Definition build (method : string) (t : told) : dcall := DCall method [VFD Sink; VStr (t_module t)] [TInt64].
Definition debugInstance (i : string) (r : debugreq) : dcall := DCall "DebugInstance" [VStr i; VReq r] [TBytes].
Definition named (l : list location) : bool := existsb (fun x => match x with Named _ => true | Offset _ => false end) l.
Definition offsets (t : told) (l : list location) : list Z := flat_map (fun x => match x with Offset n => [n] | Named s => t_resolve t s end) l.
(* debug.go:139-180: the calls that are made to resolve the locations *)
Definition parseBreakpoints (method : string) (t : told) (i : string) (l : list location) : list dcall :=
  if named l then [debugInstance i (DReq ConfigGet false []); build method t] else [].
(* debug.go:62-126 *)
Definition debug (method : string) (t : told) (i : string) (d : dcmd) : list dcall :=
  match d with
  | DShow => [debugInstance i (DReq ConfigGet false [])]
  | DBreak l => parseBreakpoints method t i l ++ [debugInstance i (DReq ConfigUnion true (offsets t l))]
  | DDeleteBreak l => parseBreakpoints method t i l ++ [debugInstance i (DReq ConfigComplement false (offsets t l))]
  | DDetach => [debugInstance i (DReq ConfigSet false [])]
  | DBacktrace => [debugInstance i (DReq ReadStack false []); build method t]
  | DDumpText => [debugInstance i (DReq ConfigGet false []); build method t]
  end.

(* local.go:51-478; None: the command fails before calling.  download: the method name in debug.go:322. *)
Definition calls_ (download : string) (c : lconfig) (t : told) (x : lcmd) : option (list dcall) :=
  let b := base c in
  let log := debugLog b in
  match x with
  | LCall arg f =>                                                                                                       (* 52-110 *)
      let tail := [VStr (functionOr f b); VStrs (instanceTags b); VStrs (scope_ c); VFD Quit; VFD Stdin; VFD Stdout; VFD DebugLog; VBool log] in
      let st := [TStr; TInt32; TInt32; TInt32] in
      Some [if is_id arg then DCall "Call" (VStr arg :: tail) st
            else DCall "CallFile" (VFD (Content arg) :: VBool (pin_ b) :: VStrs (moduleTags b) :: tail) st]
  | LDebug i d => Some (debug download t i d)                                                                            (* 112-128 *)
  | LDelete i => Some [DCall "DeleteInstance" [VStr i] []]                                                               (* 130-135 *)
  | LExport m => Some [DCall "DownloadModule" [VFD Sink; VStr m] [TInt64]]                                               (* 137-147, 490-502 *)
  | LImport n tags => Some [DCall "UploadModule" [VFD (Content n); VInt64 (t_size t n); VStr ""; VStrs (tagsOr tags (moduleTags b))] [TStr]] (* 149-195 *)
  | LInstances_ => Some (DCall "ListInstances" [] [TStrs] :: map getInstanceInfo (t_ids t))                              (* 197-207 *)
  | LIO i => Some [DCall "ConnectInstance" [VStr i; VFD Stdin; VFD Stdout] [TBool]]                                      (* 209-226 *)
  | LKill i => Some (instanceWaiter c "Kill" i)                                                                          (* 228-233 *)
  | LLaunch arg f tags =>                                                                                                (* 235-270 *)
      let T := match f with Some _ => tagsOr tags (instanceTags b) | None => instanceTags b end in
      let tail := [VStr (functionOr f b); VBool (suspend_ b); VStrs T; VStrs (scope_ c); VFD DebugLog; VBool log] in
      Some [if is_id arg then DCall "Launch" (VStr arg :: tail) [TStr]
            else DCall "LaunchFile" (VFD (Content arg) :: VBool (pin_ b) :: VStrs (moduleTags b) :: tail) [TStr]]
  | LModules_ => Some (DCall "ListModules" [] [TStrs] :: map (fun m => DCall "GetModuleInfo" [VStr m] [TStrs]) (t_ids t)) (* 272-286 *)
  | LPin m tags => Some [DCall "PinModule" [VStr m; VStrs (tagsOr tags (moduleTags b))] []]                              (* 288-297 *)
  | LPull m => match t_length t with                                                                                     (* 299-328 *)
               | None => None
               | Some n => Some [DCall "UploadModule" [VFD (Fetched m); VInt64 n; VStr m; VStrs (moduleTags b)] [TStr]]
               end
  | LPush m => Some [DCall "DownloadModule" [VFD Sink; VStr m] [TInt64]]                                                 (* 330-358 *)
  | LREPL i => Some [DCall "ConnectInstance" [VStr i; VFD Typed; VFD Shown] [TBool]]                                     (* 361-392 *)
  | LResume i f => Some [DCall "ResumeInstance" [VStr i; VStr (functionOr f b); VStrs (scope_ c); VFD DebugLog; VBool log] []]  (* 394-407 *)
  | LShow m => Some [DCall "GetModuleInfo" [VStr m] [TStrs]]                                                             (* 409-418 *)
  | LSnapshot i tags => Some [DCall "Snapshot" [VStr i; VStrs (tagsOr tags (moduleTags b))] [TStr]]                      (* 420-433 *)
  | LStatus i => Some [getInstanceInfo i]                                                                                (* 435-440 *)
  | LSuspend i => Some (instanceWaiter c "Suspend" i)                                                                    (* 442-447 *)
  | LUnpin m => Some [DCall "UnpinModule" [VStr m] []]                                                                   (* 449-454 *)
  | LUpdate i tags => match tagsOr tags (instanceTags b) with                                                            (* 456-470 *)
                      | [] => None
                      | T => Some [DCall "UpdateInstance" [VStr i; VBool true; VStrs T] []]
                      end
  | LWait i => Some [waitInstance i]                                                                                     (* 472-477 *)
  | LScope => Some [DCall "GetScope" [] [TStrs]]                                                                         (* 480-488 *)
  end.
Definition calls := calls_ "Download".

(* ---- The daemon ---- *)
(* server/api: LaunchOptions, ModuleOptions; the log: InvokeOptions' DebugLog *)
Record launchopt := Launch { l_function : string; l_transient : bool; l_suspend : bool; l_tags : list string }.
Inductive source := Known (id : string) | Upload (f : file) (pin : bool) (tags : list string).
(* What is asked of the server *)
Inductive op :=
| OCall (m : source) (l : launchopt) (scope : list string) (suspend r w : file) (log : option file)     (* run, connect to r and w, wait, kill; suspend when there is data *)
| OLaunch (m : source) (l : launchopt) (scope : list string) (log : option file)
| OConnect (i : string) (r w : file)
| ODebug (i : string) (r : debugreq)
| ODelete (i : string)
| ODownload (m : string) (f : file)
| OInstanceInfo (i : string)
| OModuleInfo (m : string)
| OFeatures
| OInstances
| OModules
| OPin (m : string) (pin : bool) (tags : list string)
| OResume (i function : string) (scope : list string) (log : option file)
| OSnapshot (i : string) (pin : bool) (tags : list string)
| OUnpin (m : string)
| OUpdate (i : string) (persist : bool) (tags : list string)
| OUpload (f : file) (len : Z) (hash : string) (pin : bool) (tags : list string)
| OWait (i : string)
| OKill (i : string)
| OSuspend (i : string).

(* daemoncmd.go:779-786 *)
Definition invokeOptions (f : file) (log : bool) : option file := if log then Some f else None.

(* daemoncmd.go:279-503: the methods.  None: there is no such method with such parameters.  The types are those of the reply. *)
Definition methods (name : string) (a : list value) : option (op * list ty) :=
  let is s := String.eqb name s in
  match a with
  | [] =>
      if is "GetScope" then Some (OFeatures, [TStrs])                                                                    (* 369-373 *)
      else if is "ListInstances" then Some (OInstances, [TStrs])                                                         (* 421-425 *)
      else if is "ListModules" then Some (OModules, [TStrs])                                                             (* 427-431 *)
      else None
  | [VStr x] =>
      if is "DeleteInstance" then Some (ODelete x, [])                                                                   (* 339-343 *)
      else if is "GetInstanceInfo" then Some (OInstanceInfo x, [TInt32; TInt32; TInt32; TStrs])                          (* 357-361 *)
      else if is "GetModuleInfo" then Some (OModuleInfo x, [TStrs])                                                      (* 363-367 *)
      else if is "UnpinModule" then Some (OUnpin x, [])                                                                  (* 460-464 *)
      else if is "WaitInstance" then Some (OWait x, [TInt32; TInt32; TInt32])                                            (* 484-488 *)
      else if is "Kill" then Some (OKill x, [])                                                                          (* 491-503 *)
      else if is "Suspend" then Some (OSuspend x, [])
      else None
  | [VStr x; VStrs tags] =>
      if is "PinModule" then Some (OPin x true tags, [])                                                                 (* 433-441 *)
      else if is "Snapshot" then Some (OSnapshot x true tags, [TStr])                                                    (* 453-458 *)
      else None
  | [VStr x; VReq r] => if is "DebugInstance" then Some (ODebug x r, [TBytes]) else None                                 (* 333-337 *)
  | [VFD f; VStr m] => if is "DownloadModule" then Some (ODownload m f, [TInt64]) else None                              (* 345-356 *)
  | [VStr x; VFD r; VFD w] => if is "ConnectInstance" then Some (OConnect x r w, [TBool]) else None                      (* 327-331 *)
  | [VStr x; VBool p; VStrs tags] => if is "UpdateInstance" then Some (OUpdate x p tags, []) else None                   (* 466-474 *)
  | [VFD f; VInt64 n; VStr h; VStrs tags] => if is "UploadModule" then Some (OUpload f n h true tags, [TStr]) else None  (* 476-482 *)
  | [VStr x; VStr f; VStrs sc; VFD d; VBool log] =>
      if is "ResumeInstance" then Some (OResume x f sc (invokeOptions d log), []) else None                              (* 443-451 *)
  | [VStr m; VStr f; VBool s; VStrs tags; VStrs sc; VFD d; VBool log] =>
      if is "Launch" then Some (OLaunch (Known m) (Launch f false s tags) sc (invokeOptions d log), [TStr]) else None    (* 375-394 *)
  | [VStr m; VStr f; VStrs tags; VStrs sc; VFD q; VFD r; VFD w; VFD d; VBool log] =>
      if is "Call" then Some (OCall (Known m) (Launch f true false tags) sc q r w (invokeOptions d log), [TStr; TInt32; TInt32; TInt32]) else None  (* 279-299 *)
  | [VFD m; VBool p; VStrs mt; VStr f; VBool s; VStrs tags; VStrs sc; VFD d; VBool log] =>
      if is "LaunchFile" then Some (OLaunch (Upload m p mt) (Launch f false s tags) sc (invokeOptions d log), [TStr]) else None  (* 396-419 *)
  | [VFD m; VBool p; VStrs mt; VStr f; VStrs tags; VStrs sc; VFD q; VFD r; VFD w; VFD d; VBool log] =>
      if is "CallFile" then Some (OCall (Upload m p mt) (Launch f true false tags) sc q r w (invokeOptions d log), [TStr; TInt32; TInt32; TInt32]) else None  (* 301-325 *)
  | _ => None
  end.

Definition ty_eqb (a b : ty) : bool :=
  match a, b with TStr, TStr | TStrs, TStrs | TBool, TBool | TInt64, TInt64 | TInt32, TInt32 | TBytes, TBytes | TFD, TFD => true | _, _ => false end.
Fixpoint tys_eqb (a b : list ty) : bool := match a, b with [], [] => true | x :: s, y :: t => ty_eqb x y && tys_eqb s t | _, _ => false end.
(* The calls in turn, when the server does what it is asked: what is asked of the server, and whether the client got through (otherwise check exits) *)
Fixpoint perform (l : list dcall) : list op * bool :=
  match l with
  | [] => ([], true)
  | k :: t => match methods (method_ k) (args k) with
              | None => ([], false)
              | Some (o, r) => if tys_eqb r (stores k) then let p := perform t in (o :: fst p, snd p) else ([o], false)
              end
  end.
Definition local_ (download : string) (c : lconfig) (t : told) (x : lcmd) : option (list op * bool) := option_map perform (calls_ download c t x).
Definition local := local_ "Download".
