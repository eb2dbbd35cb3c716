(* Query.v: model of the handling of query parameters in server/web/request.go and
   server/web/handler.go.

   A parsed query (url.Values) is the list of its key-value pairs in the order in which they
   appear: the map's list for a key is the list of the pairs with that key, and the map is
   empty when there are no pairs (url.ParseQuery makes no empty lists).
   Left out: the checks of content and accept headers which the handlers do in between
   (they only lead to more error responses), and what an action's handler does. *)
From Verif Require Export Base.
From Coq Require Export String.
Open Scope string_scope.
Open Scope list_scope.

Definition query := list (string * string).
Definition vals (q : query) (k : string) : list string := map snd (filter (fun p => String.eqb (fst p) k) q).
Definition del (q : query) (k : string) : query := filter (fun p => negb (String.eqb (fst p) k)) q.

(* What a handler does with the server, with all that it takes from the query. *)
Inductive action :=
| ACall (websocket pin : bool) (function : string) (modtags insttags : list string)
| ALaunch (pin : bool) (function instance : string) (modtags insttags : list string) (suspend : bool)
| ADownload | AUpload (modtags : list string) | AKnown | APin (modtags : list string) | AUnpin | ASource (modtags : list string)
| AInfo | AIO (websocket : bool) | AResume (function : string) | ASnapshot (modtags : list string) | ADelete | AUpdate | ADebug
| AKill (wait : bool) | ASuspend (wait : bool) | AWait
| AFeatures (level : nat).
(* Whether an error was responded, and what was done.  A GET without parameters gets an
   empty response (request.go:153-158), which is not an error. *)
Record outcome := Out { err : bool; act : option action }.
Definition fail : outcome := Out true None.
Definition empty : outcome := Out false None.
Definition do_ (a : action) : outcome := Out false (Some a).

(* request.go:140-144 *)
Definition popOptionalParams (q : query) (k : string) : list string * query := (vals q k, del q k).
(* request.go:146-168; a raw query without parameters such as & is left out; get: GET or HEAD *)
Definition popLastParam (get : bool) (q0 q : query) (k : string) (f : string -> query -> outcome) : outcome :=
  match vals q k with
  | [v] => f v (del q k)
  | [] => match q0 with [] => if get then empty else fail | _ => fail end
  | _ => fail
  end.
(* request.go:170-183 *)
Definition popOptionalLastParam (q : query) (k : string) (f : string -> query -> outcome) : outcome :=
  match vals q k with [v] => f v (del q k) | [] => f "" q | _ => fail end.
(* request.go:185-193 *)
Definition popOptionalLastLogParam (q : query) (f : query -> outcome) : outcome :=
  popOptionalLastParam q "log" (fun v q => if String.eqb v "" || String.eqb v "*" then f q else fail).
(* request.go:195-208: the first matching value is removed *)
Fixpoint popAction (q : query) (a : string) : bool * query :=
  match q with
  | [] => (false, [])
  | p :: t => if String.eqb (fst p) "action" && String.eqb (snd p) a then (true, t) else let r := popAction t a in (fst r, p :: snd r)
  end.
(* webapi.go:374-375: [A-Za-z0-9-._]{1,31} *)
Definition function_char (c : Ascii.ascii) : bool :=
  let n := Ascii.nat_of_ascii c in
  (Nat.leb 65 n && Nat.leb n 90) || (Nat.leb 97 n && Nat.leb n 122) || (Nat.leb 48 n && Nat.leb n 57) || Nat.eqb n 45 || Nat.eqb n 46 || Nat.eqb n 95.
Fixpoint all_chars (f : Ascii.ascii -> bool) (s : string) : bool := match s with EmptyString => true | String c t => f c && all_chars f t end.
Definition function_ok (s : string) : bool := Nat.leb 1 (String.length s) && Nat.leb (String.length s) 31 && all_chars function_char s.
(* request.go:210-217 *)
Definition popFunction (q : query) (f : string -> query -> outcome) : outcome :=
  popOptionalLastParam q "function" (fun v q => if negb (String.eqb v "") && negb (function_ok v) then fail else f v q).
(* request.go:219-224 *)
Definition noParams (q : query) (o : outcome) : outcome := match q with [] => o | _ => fail end.
Definition has (q : query) (k : string) : bool := match vals q k with [] => false | _ => true end.

(* The common parts of the handlers: function, instance tags, log, and nothing else. *)
Definition callParams (q : query) (f : string -> list string -> outcome) : outcome :=
  popFunction q (fun function q =>
  let (instTags, q) := popOptionalParams q "instance.tag" in
  popOptionalLastLogParam q (fun q => noParams q (f function instTags))).
Definition launchParams (q : query) (f : string -> string -> list string -> outcome) : outcome :=
  popFunction q (fun function q =>
  popOptionalLastParam q "instance" (fun instance q =>
  let (instTags, q) := popOptionalParams q "instance.tag" in
  popOptionalLastLogParam q (fun q => noParams q (f function instance instTags)))).
Definition popModTags (pin : bool) (q : query) : list string * query := if pin then popOptionalParams q "module.tag" else ([], q).

(* handler.go:438-466; answers has three elements *)
Fixpoint features_level (l : list string) (level : nat) : option nat :=
  match l with
  | [] => Some level
  | v :: t => if String.eqb v "scope" then features_level t (if Nat.eqb level 0 then 1%nat else level)
              else if String.eqb v "*" then features_level t 2%nat else None
  end.
Definition handleGetFeatures (q : query) : outcome :=
  let (features, q) := popOptionalParams q "feature" in
  noParams q (match features_level features 0 with Some l => do_ (AFeatures l) | None => fail end).

(* handler.go:468-498 *)
Definition handleGetKnownModule (q0 : query) : outcome :=
  let (pin, q) := popAction q0 "pin" in
  let (modTags, q) := popModTags pin q in
  if has q "action" then
    popLastParam true q0 q "action" (fun a q =>
      if String.eqb a "call" then callParams q (fun function instTags => do_ (ACall true pin function modTags instTags))
      else fail)
  else if pin then fail else noParams q (do_ ADownload).

(* handler.go:508-548 *)
Definition handlePutKnownModule (q0 : query) : outcome :=
  let (pin, q) := popAction q0 "pin" in
  let (suspend, q) := popAction q "suspend" in
  let (modTags, q) := popModTags pin q in
  if has q "action" then
    popLastParam false q0 q "action" (fun a q =>
      if String.eqb a "call" then callParams q (fun function instTags => do_ (ACall false pin function modTags instTags))
      else if String.eqb a "launch" then launchParams q (fun function instance instTags => do_ (ALaunch pin function instance modTags instTags suspend))
      else fail)
  else if pin then noParams q (do_ (AUpload modTags)) else fail.

(* handler.go:550-596 *)
Definition handlePostKnownModule (q0 : query) : outcome :=
  match vals q0 "action" with
  | [] => noParams q0 (do_ AKnown)
  | _ =>
      let (suspend, q) := popAction q0 "suspend" in
      popLastParam false q0 q "action" (fun a q =>
        if String.eqb a "call" then callParams q (fun function instTags => do_ (ACall false false function [] instTags))
        else if String.eqb a "launch" then launchParams q (fun function instance instTags => do_ (ALaunch false function instance [] instTags suspend))
        else if String.eqb a "pin" then let (modTags, q) := popOptionalParams q "module.tag" in noParams q (do_ (APin modTags))
        else if String.eqb a "unpin" then noParams q (do_ AUnpin)
        else fail)
  end.

(* handler.go:598-618 *)
Definition handleGetModuleSource (q0 : query) : outcome :=
  let (pin, q) := popAction q0 "pin" in
  let (modTags, q) := popModTags pin q in
  popLastParam true q0 q "action" (fun a q =>
    if String.eqb a "call" then callParams q (fun function instTags => do_ (ACall true pin function modTags instTags))
    else fail).

(* handler.go:620-666; in the call case the error response is not followed by a return *)
Definition handlePostModuleSource (q0 : query) : outcome :=
  let (pin, q) := popAction q0 "pin" in
  let (modTags, q) := popModTags pin q in
  if has q "action" then
    let (suspend, q) := popAction q "suspend" in
    popLastParam false q0 q "action" (fun a q =>
      if String.eqb a "call" then
        let o := callParams q (fun function instTags => do_ (ACall false pin function modTags instTags)) in
        Out (suspend || err o) (act o)
      else if String.eqb a "launch" then launchParams q (fun function instance instTags => do_ (ALaunch pin function instance modTags instTags suspend))
      else fail)
  else if pin then noParams q (do_ (ASource modTags)) else fail.

(* handler.go:668-679 *)
Definition handleGetInstance (q0 : query) : outcome :=
  popLastParam true q0 q0 "action" (fun a q => if String.eqb a "io" then noParams q (do_ (AIO true)) else fail).

(* handler.go:737-757: kill, suspend, wait *)
Fixpoint flags (l : list string) (kill suspend wait : bool) : option (bool * bool * bool) :=
  match l with
  | [] => Some (kill, suspend, wait)
  | a :: t => if String.eqb a "kill" then flags t true suspend wait
              else if String.eqb a "suspend" then flags t kill true wait
              else if String.eqb a "wait" then flags t kill suspend true
              else None
  end.
(* handler.go:737-775 *)
Definition instanceFlags (actions : list string) (q : query) : outcome :=
  match flags actions false false false with
  | None => fail
  | Some (kill, suspend, wait) =>
      if kill && negb suspend then noParams q (do_ (AKill wait))
      else if suspend && negb kill then noParams q (do_ (ASuspend wait))
      else if wait && negb kill && negb suspend then noParams q (do_ AWait)
      else fail
  end.
(* handler.go:689-775 *)
Definition handlePostInstance (q0 : query) : outcome :=
  let (actions, q) := popOptionalParams q0 "action" in
  match actions with
  | [] => noParams q (do_ AInfo)
  | [a] =>
      if String.eqb a "io" then noParams q (do_ (AIO false))
      else if String.eqb a "resume" then popFunction q (fun function q => popOptionalLastLogParam q (fun q => noParams q (do_ (AResume function))))
      else if String.eqb a "snapshot" then let (modTags, q) := popOptionalParams q "module.tag" in noParams q (do_ (ASnapshot modTags))
      else if String.eqb a "delete" then noParams q (do_ ADelete)
      else if String.eqb a "update" then noParams q (do_ AUpdate)
      else if String.eqb a "debug" then noParams q (do_ ADebug)
      else instanceFlags actions q
  | _ => instanceFlags actions q
  end.

Inductive endpoint := GetFeatures | GetKnown | PutKnown | PostKnown | GetSource | PostSource | GetInstance | PostInstance.
(* handler.go:240-425: the method handlers *)
Definition handle (e : endpoint) (q : query) : outcome :=
  match e with
  | GetFeatures => handleGetFeatures q
  | GetKnown => handleGetKnownModule q
  | PutKnown => handlePutKnownModule q
  | PostKnown => handlePostKnownModule q
  | GetSource => handleGetModuleSource q
  | PostSource => handlePostModuleSource q
  | GetInstance => handleGetInstance q
  | PostInstance => handlePostInstance q
  end.
