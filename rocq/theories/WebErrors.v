(* WebErrors.v: model of how the web server answers when the server returns an error: server/web/response.go (respondServerError),
   websocket.go (websocketResponseWriter), and the error types: server/access.go, server/ratelimit.go, internal/error/...,
   server/internal/error/... *)
From Coq Require Export String.
From Verif Require Export Base.
Open Scope list_scope.

(* What can be asked of a Go error value: the text, and the interfaces that it implements.  e_retry: RetryAfter's results (in
   nanoseconds) when called for the first and for the second time. *)
Record error := Error {
  e_text : string; e_public : option string;
  e_unauthorized : bool; e_limit : bool; e_forbidden : bool; e_retry : option (Z * Z); e_notfound : bool;
  e_nomodule : bool; e_nofunction : bool; e_noinstance : bool; e_fail : option Z; e_program : bool; e_module : bool }.
(* server/event/event.pb.go:165-189: FailRequest_Type values that are used here *)
Definition FailUnspecified := 0.
Definition FailAuthDenied := 8.
Definition FailResourceDenied := 10.
Definition FailResourceLimit := 11.
Definition FailRateLimit := 12.
Definition FailModuleNotFound := 13.
Definition FailFunctionNotFound := 16.
Definition FailInstanceNotFound := 18.
Definition FailProgramError := 17.
Definition FailModuleError := 15.
(* What is monitored: server/web/report.go:15-30 reportInternalError, :44-53 reportRequestError *)
Inductive report := Internal | Request (type : Z).
Record answer := Answer { a_status : Z; a_text : string; a_authenticate : bool; a_retry : option Z; a_report : report }.

(* internal/error/public/publicerror.go:17-22 Error *)
Definition public_error (e : error) (alternative : string) : string :=
  match e_public e with Some t => t | None => alternative end.
(* server/web/response.go:267-278: the Retry-After header *)
Definition retry_after (d : Z * Z) : option Z :=
  if fst d =? 0 then None
  else let s := Z.quot (snd d) (10 ^ 9) in Some (if s =? 0 then 1 else s).
(* server/web/response.go:237-325 respondServerError *)
Definition respond_server_error (e : error) : answer :=
  let '(status, text, auth, retry, rep) :=
    if e_unauthorized e then (401, "unauthorized"%string, true, None, Request FailAuthDenied)
    else if e_limit e then (403, "resource limit reached"%string, false, None, Request FailResourceLimit)
    else if e_forbidden e then (403, "forbidden"%string, false, None, Request FailResourceDenied)
    else match e_retry e with
    | Some d => (429, "too many requests"%string, false, retry_after d, Request FailRateLimit)
    | None =>
    if e_notfound e then
      let '(text, type) :=
        if e_nomodule e then ("module not found"%string, FailModuleNotFound)
        else if e_nofunction e then ("function not found"%string, FailFunctionNotFound)
        else if e_noinstance e then ("instance not found"%string, FailInstanceNotFound)
        else ("not found"%string, FailUnspecified) in
      (404, text, false, None, Request type)
    else match e_fail e with
    | Some type => (400, "bad request"%string, false, None, Request type)
    | None =>
    if e_program e then (400, "bad program"%string, false, None, Request FailProgramError)
    else if e_module e then (400, "bad module"%string, false, None, Request FailModuleError)
    else (500, "internal server error"%string, false, None, Internal)
    end end in
  Answer status (public_error e text) auth retry rep.

(* server/web/response.go:91-99 respond: the body, if the client accepts text *)
Definition http_body (acceptsText : bool) (a : answer) : option string := if acceptsText then Some (a_text a) else None.
(* server/web/websocket.go:58-64 WriteError: the close message's code and text.  None: gorilla/websocket refuses to send it, because
   a control frame has at most 125 bytes, 2 of which are the code. *)
Definition websocket_close (a : answer) : option (Z * string) :=
  let code := if (400 <=? a_status a) && (a_status a <? 500) then 1008 else 1011 in
  if Z.of_nat (String.length (a_text a)) + 2 >? 125 then None else Some (code, a_text a).

(** ** Errors *)

(* Errors of the server.  Rate limits: in terms of nanoseconds; now and later are when RetryAfter is called. *)
Inductive server_error :=
  | AccessUnauthorized (publicReason : string)          (* server/access.go:94-102 *)
  | AccessForbidden (internalDetails : string)          (* server/access.go:111-119 *)
  | RetryAfter (until now later : Z)                    (* server/ratelimit.go:19-36 *)
  | ResourceLimit (text : string)                       (* internal/error/resourcelimit *)
  | NoModule | NoInstance                               (* server/internal/error/resourcenotfound *)
  | NoFunction (text : string)                          (* internal/error/notfound *)
  | FailRequest (type : Z) (text : string)              (* server/internal/error/failrequest: New *)
  | FailWrapped (type : Z) (cause public : string)      (* server/internal/error/failrequest: Wrap *)
  | BadProgram (text : string)                          (* internal/error/badprogram *)
  | BadModule (private public : string)                 (* internal/error/badmodule: Dual *)
  | Public (text : string)                              (* internal/error/public: Err *)
  | Other (text : string).                              (* any other error *)
Definition plain (text : string) (public : option string) : error :=
  Error text public false false false None false false false false None false false.
(* server/ratelimit.go:30-36 RetryAfter *)
Definition until_time (until now : Z) : Z := let d := until - now in if d <? 1 then 1 else d.
Definition as_error (e : server_error) : error :=
  match e with
  | AccessUnauthorized t => Error t (Some t) true false false None false false false false None false false
  | AccessForbidden t => Error t (Some "access denied"%string) false false true None false false false false None false false
  | RetryAfter u n l => let t := "request rate limit exceeded"%string in
      Error t (Some t) false false false (Some (until_time u n, until_time u l)) false false false false None false false
  | ResourceLimit t => Error t (Some t) false true false None false false false false None false false
  | NoModule => let t := "module not found"%string in Error t (Some t) false false false None true true false false None false false
  | NoInstance => let t := "instance not found"%string in Error t (Some t) false false false None true false false true None false false
  | NoFunction t => Error t (Some t) false false false None true false true false None false false
  | FailRequest ty t => Error t (Some t) false false false None false false false false (Some ty) false false
  | FailWrapped ty c t => Error c (Some t) false false false None false false false false (Some ty) false false
  | BadProgram t => Error t (Some t) false false false None false false false false None true false
  | BadModule a b => Error a (Some b) false false false None false false false false None false true
  | Public t => plain t (Some t)
  | Other t => plain t None
  end.
