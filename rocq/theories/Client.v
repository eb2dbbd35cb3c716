(* Client.v: model of the requests which the command line client sends to a remote server (cmd/gate/main/remote.go), of the content
   checks which the server makes in addition to the parameter handling of Query.v (server/web/handler.go, request.go), of the websocket
   call loop, and of the exit status.
   Left out: the URL's percent-encoding and its inverse (url.Values.Encode sorts the parameters by key and keeps the order of a key's
   values; url.ParseQuery gets them back), redirections, authorization (see ClientAuth.v), and the usage checks of command lines. *)
From Verif Require Export Routes.
From Verif Require Websocket.
From Coq Require Export Ascii.

(* clientcmd.go:36-51: the configuration and the flags that affect requests; debugLog: whether DebugLog is nonempty *)
Record config := Config {
  pin_ : bool; moduleTags : list string; wait_ : bool; function_ : string; instance_ : string; instanceTags : list string;
  suspend_ : bool; debugLog : bool }.

(* remote.go:32-469: the commands with their arguments.  The file case has the id computed from the file's content (loadModule). *)
Inductive modarg := MArg (arg fileKey : string).
Inductive cmd :=
| CCall (m : modarg) (function : option string)
| CDebug (inst : string)
| CDelete (inst : string)
| CExport (m : string)
| CImport (fileKey : string) (tags : list string)
| CInstances
| CIO (inst : string)
| CKill (inst : string)
| CLaunch (m : modarg) (function : option string) (tags : list string)
| CModules
| CPin (m : string) (tags : list string)
| CREPL (inst : string)
| CResume (inst : string)
| CShow (m : string)
| CSnapshot (inst : string) (tags : list string)
| CStatus (inst : string)
| CSuspend (inst : string)
| CUnpin (m : string)
| CUpdate (inst : string) (tags : list string)
| CWait (inst : string).

(* The content of a request: nothing; a stream of unspecified length; a module; a protobuf encoding; a JSON object with its fields' names *)
Inductive content := NoContent | Stream | Wasm | Proto | JSON (fields : list string).
Record creq := Req { method : string; path : string; params : query; ctype : option string; body : content; accept : option string; websocket : bool }.

Definition get (path : string) (q : query) : creq := Req "GET" path q None NoContent None false.
Definition post (path : string) (q : query) : creq := Req "POST" path q None NoContent None false.

Fixpoint contains (c : ascii) (s : string) : bool := match s with EmptyString => false | String a t => Ascii.eqb a c || contains c t end.
(* remote.go:59, 243: !(strings.Contains(arg, "/") || strings.Contains(arg, ".")) *)
Definition is_id (arg : string) : bool := negb (contains "047" arg || contains "." arg).
(* strings.HasPrefix(arg, "/ipfs/") *)
Definition is_ipfs (arg : string) : bool := match strip "/ipfs/" arg with Some _ => true | None => false end.

Definition set_ (k v : string) : query := if String.eqb v "" then [] else [(k, v)].
Definition add (k : string) (vs : list string) : query := map (fun v => (k, v)) vs.
Definition log_ (c : config) : query := if debugLog c then [("log", "*")] else [].
Definition tagsOr (tail dflt : list string) : list string := match tail with [] => dflt | _ => tail end.
Definition functionOr (f : option string) (c : config) : string := match f with Some f => f | None => function_ c end.

(* remote.go:33-86.  The query is in url.Values.Encode's order. *)
Definition call (c : config) (m : modarg) (f : option string) : creq :=
  let function := functionOr f c in
  let p (pin : bool) := add "action" ("call" :: if pin then ["pin"] else []) ++ set_ "function" function ++ add "instance.tag" (instanceTags c) ++ log_ c ++
               (if pin then add "module.tag" (moduleTags c) else []) in
  match m with MArg arg key =>
    if is_id arg then Req "POST" (PathKnownModules ++ arg)%string (p false) None Stream None false
    else if is_ipfs arg then Req "POST" (PathModule ++ arg)%string (p (pin_ c)) None Stream None false
    else Req "GET" (PathKnownModules ++ key)%string (p (pin_ c)) (Some "application/wasm") Wasm None true
  end.

(* remote.go:202-281 *)
Definition launch (c : config) (m : modarg) (f : option string) (tail : list string) : creq :=
  let function := functionOr f c in
  let tags := match f with Some _ => tagsOr tail (instanceTags c) | None => instanceTags c end in
  let p (pin : bool) := add "action" ("launch" :: (if suspend_ c then ["suspend"] else []) ++ (if pin then ["pin"] else [])) ++ set_ "function" function ++
               set_ "instance" (instance_ c) ++ add "instance.tag" tags ++ log_ c ++ (if pin then add "module.tag" (moduleTags c) else []) in
  match m with MArg arg key =>
    if is_id arg then post (PathKnownModules ++ arg)%string (p false)
    else if is_ipfs arg then Req "PUT" (PathModule ++ arg)%string (p (pin_ c)) None NoContent None false
    else Req "PUT" (PathKnownModules ++ key)%string (p (pin_ c)) (Some "application/wasm") Wasm None false
  end.

Definition onInstance (inst : string) (actions : list string) : creq := post (PathInstances ++ inst)%string (add "action" actions).
(* remote.go:541-561: commandInstance, commandInstanceWaiter *)
Definition waiter (c : config) (inst action : string) : creq := onInstance inst (action :: if wait_ c then ["wait"] else []).

(* remote.go:32-469; None: the command fails without sending anything *)
Definition remote (c : config) (x : cmd) : option creq :=
  match x with
  | CCall m f => Some (call c m f)
  | CDebug inst => Some (Req "POST" (PathInstances ++ inst)%string [("action", "debug")] (Some "application/json") Proto None false)    (* 88-115 *)
  | CDelete inst => Some (onInstance inst ["delete"])                                                                                  (* 117-122 *)
  | CExport m => Some (get (PathKnownModules ++ m)%string [])                                                                          (* 124-134, 487-492; an empty method is GET *)
  | CImport key tags => Some (Req "PUT" (PathKnownModules ++ key)%string (add "action" ["pin"] ++ add "module.tag" (tagsOr tags (moduleTags c)))
                                (Some "application/wasm") Wasm None false)                                                             (* 136-163 *)
  | CInstances => Some (post PathInstances [])                                                                                         (* 165-177 *)
  | CIO inst => Some (Req "POST" (PathInstances ++ inst)%string (add "action" ["io"]) None Stream None false)                          (* 179-193 *)
  | CKill inst => Some (waiter c inst "kill")                                                                                          (* 195-200 *)
  | CLaunch m f tags => Some (launch c m f tags)
  | CModules => Some (post PathKnownModules [])                                                                                        (* 283-295 *)
  | CPin m tags => Some (post (PathKnownModules ++ m)%string (add "action" ["pin"] ++ add "module.tag" (tagsOr tags (moduleTags c))))  (* 297-314 *)
  | CREPL inst => Some (Req "GET" (PathInstances ++ inst)%string (add "action" ["io"]) None NoContent None true)                       (* 316-337 *)
  | CResume inst => Some (post (PathInstances ++ inst)%string (add "action" ["resume"] ++ log_ c))                                     (* 339-352 *)
  | CShow m => Some (post (PathKnownModules ++ m)%string [])                                                                           (* 354-365 *)
  | CSnapshot inst tags => Some (post (PathInstances ++ inst)%string (add "action" ["snapshot"] ++ add "module.tag" (tagsOr tags (moduleTags c)))) (* 367-391 *)
  | CStatus inst => Some (Req "POST" (PathInstances ++ inst)%string [] None NoContent (Some "application/json") false)                 (* 393-408 *)
  | CSuspend inst => Some (waiter c inst "suspend")                                                                                    (* 410-415 *)
  | CUnpin m => Some (post (PathKnownModules ++ m)%string (add "action" ["unpin"]))                                                    (* 417-427 *)
  | CUpdate inst tags =>                                                                                                               (* 429-461; webapi.go:333-336: InstanceUpdate's tags *)
      match tagsOr tags (instanceTags c) with
      | [] => None
      | _ => Some (Req "POST" (PathInstances ++ inst)%string (add "action" ["update"]) (Some "application/json") (JSON ["transient"; "tags"]) None false)
      end
  | CWait inst => Some (onInstance inst ["wait"])                                                                                      (* 463-468 *)
  end.

(* ---- The server's content checks ---- *)
(* The request's r.ContentLength: a stream is sent in chunks *)
Definition no_content (r : creq) : bool := match body r with NoContent => true | _ => false end.
Definition known_length (r : creq) : bool := match body r with Stream => false | _ => true end.
Definition has_ctype (r : creq) (t : string) : bool := match ctype r with Some x => String.eqb x t | None => false end.
Definition no_ctype (r : creq) : bool := match ctype r with Some _ => false | None => true end.
(* request.go:89-111, for headers with one plain media type *)
Definition accepts (r : creq) (t : string) : bool :=
  match accept r with None => true | Some x => String.eqb x t || String.eqb x "*/*" || String.eqb x "application/*" end.
(* protojson.Unmarshal: the content is JSON, and the fields are among those of the message *)
Definition decodes (r : creq) (fields : list string) : bool :=
  match body r with JSON l => forallb (fun f => existsb (String.eqb f) fields) l | _ => false end.

(* handler.go:432-775, 1407-1452, 977-1050: the content and header checks of the handlers.  A websocket's upgrade succeeds when the
   request is one, and its first message has the content type (the model's ctype). *)
Definition content_check (r : creq) (a : action) (put source : bool) : bool :=
  match a with
  | ACall true _ _ _ _ => websocket r && (if source then no_ctype r else no_ctype r || (has_ctype r "application/wasm" && match body r with Wasm => true | _ => false end))
  | ACall false _ _ _ _ => if put then has_ctype r "application/wasm" && known_length r else true
  | ALaunch _ _ _ _ _ _ => if put then has_ctype r "application/wasm" && known_length r else no_ctype r && no_content r
  | ADownload => accepts r "application/wasm"
  | AUpload _ => has_ctype r "application/wasm" && known_length r
  | AKnown => accepts r "application/json"
  | APin _ | AUnpin | ASource _ => no_ctype r && no_content r
  | AInfo => accepts r "application/json"
  | AIO true => websocket r
  | AIO false => true
  | AUpdate => has_ctype r "application/json" && decodes r ["persist"; "tags"]
  | ADebug => has_ctype r "application/json" && decodes r ["op"; "config"; "addr"; "size"]
  | AFeatures _ => accepts r "application/json"
  | AResume _ | ASnapshot _ | ADelete | AKill _ | ASuspend _ | AWait => true
  end.

(* What the server does about a request that is sent to an address with a path prefix (remote.go:613-640: addr + uri); SNothing when it responds with an error or with nothing. *)
Inductive served := SAction (t : target) (a : action) (upload : bool) | SList (l : listing) | SNothing.
Definition is_source (t : target) : bool := match t with TSource _ _ => true | _ => false end.
Definition respond (m : mux) (prefix : string) (r : creq) : served :=
  let t := locate m (prefix ++ path r)%string in
  match serve t (method r) (params r) with
  | Reply None _ _ (Some l) _ => if no_ctype r && no_content r && accepts r "application/json" then SList l else SNothing
  | Reply _ _ _ _ (Some (Out false (Some a))) =>
      if content_check r a (String.eqb (method r) "PUT") (is_source t)
      then SAction t a (match body r with Wasm => true | _ => false end) else SNothing
  | _ => SNothing
  end.

(* ---- Status codes ---- *)
(* remote.go:593-605 *)
Definition client_accepts (status : Z) : bool := (status =? 200)%Z || (status =? 204)%Z || (status =? 201)%Z.
(* handler.go:783-1458: the status code of an action that succeeds.  connected: whether an I/O connection was made *)
Definition success_status (a : action) (connected : bool) : Z :=
  match a with
  | ACall true _ _ _ _ | AIO true => 101%Z
  | ACall false pin _ _ _ => if pin then 201%Z else 200%Z                     (* 963-967 *)
  | ALaunch pin _ _ _ _ _ => if pin then 201%Z else 204%Z                     (* 1152-1157, 1183-1188 *)
  | ADownload | AKnown | AInfo | ADebug | AFeatures _ => 200%Z                (* 783, 820, 838, 1237, 1458 *)
  | AUpload _ | ASource _ | ASnapshot _ => 201%Z                              (* 857, 872, 1404 *)
  | APin _ | AUnpin | ADelete | AResume _ | AKill _ | ASuspend _ | AWait => 204%Z  (* 885, 898, 1220, 1253, 1272, 1286 *)
  | AIO false => if connected then 200%Z else 409%Z                           (* 1302-1312 *)
  | AUpdate => 200%Z                                                          (* 1425-1433 *)
  end.

(* ---- How a call ends ---- *)
Inductive state := Running | Suspended | Halted | Terminated | Killed.
(* server/web/api/webapi.go:274-279; cause: whether it is nonempty *)
Record ending := St { st_state : state; st_cause : bool; st_result : Z }.
Inductive message := Binary (data : list Z) | Text (s : ending) (input : bool).
(* The websocket call's loop (remote.go:526-538): the bytes written to the standard output, and the status that is returned; None: the connection
   ended first (check exits with status 1) *)
Fixpoint callLoop (msgs : list message) : list Z * option ending :=
  match msgs with
  | [] => ([], None)
  | Binary d :: t => let (out, st) := callLoop t in (d ++ out, st)
  | Text s _ :: _ => ([], Some s)
  end.
(* What the server sends over the websocket after the reply (server/web/handler.go:1084-1114, websocket.go:36-44): the messages of Websocket.v's
   model which were written successfully, and the instance's status *)
Definition hint : ending := St Running false 0%Z.
Definition on_wire (l : list (Websocket.message * bool)) (final : ending) : list message :=
  flat_map (fun x => match x with (Websocket.Hint, true) => [Text hint true] | (Websocket.Bin b, true) => [Binary b] | _ => [] end) l ++ [Text final false].

(* ---- Exit status ---- *)
(* The argument of os.Exit; the operating system keeps the low 8 bits. *)
Definition os_exit (n : Z) : Z := (n mod 256)%Z.
(* remote.go:81-84; log.Fatal exits with 1. *)
Definition remote_exit (s : ending) : Z :=
  match st_state s with Terminated => if st_cause s then 1%Z else os_exit (st_result s) | _ => 1%Z end.
Definition remote_exit_of (s : option ending) : Z := match s with Some s => remote_exit s | None => 1%Z end.
(* local.go:92-107 *)
Definition local_exit (s : ending) : Z :=
  match st_state s with
  | Suspended => 0%Z
  | Halted | Terminated => os_exit (st_result s)
  | Killed | Running => 1%Z
  end.
