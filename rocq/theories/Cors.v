(* Cors.v: model of the web server's origin checks: server/web/handler.go (newHandler), request.go (mustBeAllowedOrigin),
   response.go (setAccessControl).  Text is a list of ASCII codes; Go's functions also know of other white space. *)
From Verif Require Export Base.

(* unicode.IsSpace, for ASCII *)
Definition is_space (c : Z) : bool := ((9 <=? c) && (c <=? 13)) || (c =? 32).
(* strings.TrimSpace *)
Fixpoint trim_left (t : bytes) : bytes := match t with [] => [] | c :: r => if is_space c then trim_left r else t end.
Definition trim_space (t : bytes) : bytes := rev (trim_left (rev (trim_left t))).
(* strings.Fields; word: what has been read of the current one *)
Fixpoint fields_from (word t : bytes) : list bytes :=
  match t with
  | [] => match word with [] => [] | _ => [word] end
  | c :: r => if is_space c then match word with [] => fields_from [] r | _ => word :: fields_from [] r end
              else fields_from (word ++ [c]) r
  end.
Definition fields (t : bytes) : list bytes := fields_from [] t.
Definition text_eqb (a b : bytes) : bool := if list_eq_dec Z.eq_dec a b then true else false.
Definition star : bytes := [42].

(* server/web/handler.go:43-49 webserver: the part that matters *)
Record webserver := Webserver { ws_origins : list bytes; ws_any : bool; ws_local : bool }.
(* handler.go:90-100: configured origins *)
Definition configure (local : bool) (origins : list bytes) : webserver :=
  fold_left (fun s origin =>
    let origin := trim_space origin in
    if text_eqb origin [] then s
    else if text_eqb origin star then Webserver (ws_origins s) true (ws_local s)
    else Webserver (ws_origins s ++ [origin]) (ws_any s) (ws_local s)) origins (Webserver [] false local).
(* handler.go:70-88 newHandler: panics if there are no configured origins (handlerconfig.go:29-31 Configured) *)
Definition new_handler (local : bool) (origins : list bytes) : res webserver :=
  match origins with [] => Panic | _ => Ok (configure local origins) end.
(* handler.go:51-53 NewHandler *)
Definition NewHandler (origins : list bytes) : res webserver := new_handler false origins.
(* handler.go:58-69 NewHandlerWithUnsecuredLocalAuthorization; without nonce storage *)
Definition NewLocalHandler (origins : list bytes) : res webserver :=
  if existsb (fun o => existsb (Z.eqb 42) o) origins then Panic else new_handler true origins.

(* request.go:71-85 mustBeAllowedOrigin *)
Definition allowed_origin (s : webserver) (header : bytes) : bool :=
  forallb (fun origin => existsb (fun allow => text_eqb allow origin) (ws_origins s)) (fields header).
(* net/http Header.Get: the first one of the header's values *)
Definition get (values : list bytes) : bytes := match values with [] => [] | v :: _ => v end.
(* handler.go:149-170: the handler.  values: the request's Origin headers.  true: the request goes to the multiplexer; false: it's
   answered with status 403, without any other headers. *)
Definition admitted (s : webserver) (values : list bytes) : bool :=
  if ws_any s then true
  else let origin := get values in if text_eqb origin [] then true else allowed_origin s origin.
(* response.go:58-72 setAccessControl: Access-Control-Allow-Origin in the response.  Called by all handlers. *)
Definition allow_origin (s : webserver) (values : list bytes) : option bytes :=
  match values with
  | [] => None
  | _ => Some (if ws_any s then star else get values)
  end.
(* The response: None is status 403; otherwise the Access-Control-Allow-Origin header *)
Definition respond_origin (s : webserver) (values : list bytes) : option (option bytes) :=
  if admitted s values then Some (allow_origin s values) else None.
