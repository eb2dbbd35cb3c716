(* Headers.v: model of the HTTP headers about content: server/web/request.go (Accept, TE, Content-Type, Content-Length), their uses in server/web/handler.go,
   and the server program's front handler (cmd/gate-server/main/servercmd.go:513-586).  Text is a list of ASCII codes; header values are those of
   net/http's map, in order; Content-Length is -1 if it's unknown. *)
From Verif Require Export Creds.

Definition text_eqb (a b : bytes) : bool := if list_eq_dec Z.eq_dec a b then true else false.
Definition comma : Z := 44.
Definition semicolon : Z := 59.
Definition asterisk : Z := 42.
Definition slash : Z := 47.
(* "application", "text", "plain", "json", "wasm", "trailers" *)
Definition application : bytes := [97; 112; 112; 108; 105; 99; 97; 116; 105; 111; 110].
Definition text_ : bytes := [116; 101; 120; 116].
Definition plain_ : bytes := [112; 108; 97; 105; 110].
Definition json_ : bytes := [106; 115; 111; 110].
Definition wasm_ : bytes := [119; 97; 115; 109].
Definition trailers : bytes := [116; 114; 97; 105; 108; 101; 114; 115].
Definition any_any : bytes := [asterisk; slash; asterisk].
Definition text_plain : bytes := text_ ++ [slash] ++ plain_.
Definition text_any : bytes := text_ ++ [slash; asterisk].
Definition application_json : bytes := application ++ [slash] ++ json_.
Definition application_wasm : bytes := application ++ [slash] ++ wasm_.
Definition application_any : bytes := application ++ [slash; asterisk].

(* strings.TrimSpace(strings.SplitN(field, ";", 2)[0]): request.go:25-26, 228-229 *)
Fixpoint before (sep : Z) (s : bytes) : bytes := match s with [] => [] | c :: t => if c =? sep then [] else c :: before sep t end.
Definition media_type (field : bytes) : bytes := trim_space (before semicolon field).
(* the loops of request.go:23-35, 44-56, 100-112 *)
Definition mentions (types : list bytes) (headers : list bytes) : bool :=
  existsb (fun header => existsb (fun field => existsb (text_eqb (media_type field)) types) (split_on comma header)) headers.
Definition accepts (types : list bytes) (headers : list bytes) : bool :=
  match headers with [] => true | _ => mentions types headers end.
(* request.go:17-36; servercmd.go:564-586 is the same *)
Definition acceptsText := accepts [any_any; text_plain; text_any].
(* request.go:38-57 *)
Definition acceptsJSON := accepts [any_any; application_json; application_any].
(* request.go:94-115 *)
Definition acceptsApplication (required : bytes) := accepts [required; any_any; application_any].

(* strings.ToLower of ASCII *)
Definition lower (c : Z) : Z := if (65 <=? c) && (c <=? 90) then c + 32 else c.
(* request.go:59-69 *)
Definition acceptsTrailers (te : list bytes) : bool :=
  existsb (fun header => existsb (fun field => text_eqb (trim_space field) trailers) (split_on comma (map lower header))) te.

(* The headers of a request *)
Record headers := Headers { accept : list bytes; content_type : list bytes; content_length : Z; te : list bytes }.
(* The checks: the status with which the request is refused *)
(* request.go:226-244; response.go:127-130, 147-151 *)
Definition mustHaveContentType (t : bytes) (h : headers) : option Z :=
  match content_type h with
  | [v] => if text_eqb (media_type v) t then None else Some 415
  | [] => Some 415
  | _ => Some 400
  end.
(* request.go:246-251; response.go:132-135 *)
Definition mustHaveContentLength (h : headers) : option Z := if content_length h <? 0 then Some 411 else None.
(* request.go:253-258 *)
Definition mustNotHaveContentType (h : headers) : option Z := match content_type h with [] => None | _ => Some 415 end.
(* request.go:260-265; response.go:137-140 *)
Definition mustNotHaveContent (h : headers) : option Z := if content_length h =? 0 then None else Some 413.
(* request.go:86-115; response.go:122-125 *)
Definition mustAccept (t : bytes) (h : headers) : option Z := if acceptsApplication t (accept h) then None else Some 406.
Fixpoint first_of (l : list (option Z)) : option Z := match l with [] => None | Some x :: _ => Some x | None :: t => first_of t end.

(* The operations by the method handlers that check them; GetFeatures: whether there are feature parameters *)
Inductive operation := GetStatic | GetFeatures (wanted : bool) | DownloadModule | ListModules | PutModule | GetModuleInfo
  | ListInstances | GetInstanceInfo | UpdateInstance | DebugInstance.
Definition refusal (o : operation) (h : headers) : option Z :=
  match o with
  | GetStatic => first_of [mustAccept application_json h]                                                      (* handler.go:432-436 *)
  | GetFeatures wanted => if wanted then first_of [mustAccept application_json h] else None                    (* 438-467 *)
  | DownloadModule => first_of [mustAccept application_wasm h]                                                 (* 493-495 *)
  | ListModules | ListInstances =>                                                                             (* 500-506, 681-687 *)
      first_of [mustNotHaveContentType h; mustNotHaveContent h; mustAccept application_json h]
  | PutModule => first_of [mustHaveContentType application_wasm h; mustHaveContentLength h]                    (* 508-510 *)
  | GetModuleInfo | GetInstanceInfo => first_of [mustAccept application_json h]                                (* 553-558, 694-698 *)
  | UpdateInstance | DebugInstance => first_of [mustHaveContentType application_json h]                        (* 1408, 1438 *)
  end.
(* The content type of a successful response; None: 204 or 201 without content *)
Definition response_type (o : operation) (h : headers) : option bytes :=
  match o with
  | DownloadModule => Some application_wasm                                                                    (* 837 *)
  | PutModule => None                                                                                          (* without a call *)
  | UpdateInstance => if acceptsJSON (accept h) then Some application_json else None                           (* 1425-1428 *)
  | _ => Some application_json                                                                                 (* 782, 801, 819, 1205, 1236, 1457 *)
  end.
(* A refusal's content type: response.go:91-99 *)
Definition error_type (h : headers) : option bytes := if acceptsText (accept h) then Some text_plain else None.

(* ---- The front handler ---- *)
Inductive method := GET | HEAD | OtherMethod.
Record index := Index { i_status : Z; i_location : bytes }.
(* webapi.go:39: "/gate-0/" *)
Definition api_path : bytes := [47; 103; 97; 116; 101; 45; 48; 47].
Fixpoint has_prefix (p s : bytes) : bool :=
  match p, s with [], _ => true | x :: p', y :: s' => (x =? y) && has_prefix p' s' | _, _ => false end.
(* Api: the request goes to the API's handler; Answer: the status, the Location header and the content type *)
Inductive reaction := Api | Answer (status : Z) (location : option bytes) (type : option bytes).
(* servercmd.go:553-562 *)
Definition writeResponse (status : Z) (acc : list bytes) : reaction :=
  Answer status None (if acceptsText acc then Some text_plain else None).
(* servercmd.go:513-551; secure: the listener is the HTTPS one *)
Definition front (secure : bool) (i : index) (m : method) (path : bytes) (acc : list bytes) : reaction :=
  if has_prefix api_path path then (if secure then Api else writeResponse 421 acc)
  else if (i_status i =? 404) || negb (text_eqb path [slash]) then writeResponse 404 acc
  else match m with
       | GET | HEAD => Answer (i_status i) (match i_location i with [] => None | l => Some l end) None
       | OtherMethod => Answer 405 None None
       end.
