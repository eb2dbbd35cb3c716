(* Routes.v: model of the web server's request routing: server/web/handler.go (newHandler and the path handlers), server/web/api/webapi.go
   (paths), and the part of net/http's ServeMux that they use.
   Left out: host names in patterns and requests; requests whose paths aren't clean (which ServeMux redirects to the clean path); the
   origin check, which is made before this (Cors.v); headers other than Allow and Location. *)
From Verif Require Export Query.
From Coq Require Import Ascii.

(* strings.HasPrefix and slicing: what follows the prefix *)
Fixpoint strip (d path : string) {struct d} : option string :=
  match d with
  | EmptyString => Some path
  | String c d' => match path with EmptyString => None | String c' path' => if Ascii.eqb c c' then strip d' path' else None end
  end.
(* net/http server.go: pattern[len(pattern)-1] == '/' *)
Fixpoint is_dir (s : string) : bool :=
  match s with EmptyString => false | String c EmptyString => Ascii.eqb c "047"%char | String _ t => is_dir t end.

(* webapi.go:39-43, 46-48 *)
Definition Path : string := "/gate-0/".
Definition PathModule : string := (Path ++ "module")%string.
Definition PathModuleSources : string := (Path ++ "module/")%string.
Definition PathKnownModules : string := (Path ++ "module/sha256/")%string.
Definition PathInstances : string := (Path ++ "instance/")%string.
Definition KnownModuleSource : string := "sha256".
Definition PathInstance : string := (Path ++ "instance")%string.

(* The path handlers, with the paths they are constructed with.  A module source is represented by a number. *)
Inductive handler :=
| HFeatures (path : string) | HRedirect (path : string) | HInstances (path : string) | HKnown (path : string)
| HSource (base path : string) (source : nat) | HSources (path : string).
Definition mux := list (string * handler).

(* net/http ServeMux.Handle: panics on an empty pattern and on a pattern that has been registered already *)
Definition register (m : mux) (pattern : string) (h : handler) : res mux :=
  if String.eqb pattern "" then Panic
  else if existsb (fun e => String.eqb (fst e) pattern) m then Panic
  else Ok (m ++ [(pattern, h)]).
(* handler.go:139-150: the sources, in the order in which the map happens to be iterated over *)
Fixpoint register_sources (p : string) (srcs : list (string * nat)) (m : mux) : res mux :=
  match srcs with
  | [] => Ok m
  | (relURI, source) :: t =>
      let pathSource := (p ++ PathModule ++ relURI)%string in
      let pathSourceDir := (pathSource ++ "/")%string in
      bind (register m pathSource (HRedirect pathSource)) (fun m =>
      bind (register m pathSourceDir (HSource (p ++ PathModule)%string pathSourceDir source)) (fun m =>
      register_sources p t m))
  end.
(* handler.go:106-156 *)
Definition newMux (p : string) (srcs : list (string * nat)) : res mux :=
  bind (register [] (p ++ Path)%string (HFeatures (p ++ Path)%string)) (fun m =>
  bind (register m (p ++ PathModule)%string (HRedirect (p ++ PathModule)%string)) (fun m =>
  bind (register m (p ++ PathInstance)%string (HRedirect (p ++ PathInstance)%string)) (fun m =>
  bind (register m (p ++ PathInstances)%string (HInstances (p ++ PathInstances)%string)) (fun m =>
  bind (register m (p ++ PathModuleSources ++ KnownModuleSource)%string (HRedirect (p ++ PathModuleSources ++ KnownModuleSource)%string)) (fun m =>
  bind (register m (p ++ PathKnownModules)%string (HKnown (p ++ PathKnownModules)%string)) (fun m =>
  bind (register_sources p srcs m) (fun m =>
  register m (p ++ PathModuleSources)%string (HSources (p ++ PathModuleSources)%string)))))))).

(* net/http ServeMux.match: the exact pattern *)
Fixpoint exact (m : mux) (path : string) : option handler :=
  match m with [] => None | (d, h) :: t => if String.eqb d path then Some h else exact t path end.
(* ServeMux.match: the longest one of the patterns that end with a slash and are prefixes of the path *)
Fixpoint longest (m : mux) (path : string) : option (string * handler) :=
  match m with
  | [] => None
  | (d, h) :: t =>
      let r := longest t path in
      match is_dir d, strip d path with
      | true, Some _ => match r with
                        | Some (d', h') => if Nat.ltb (String.length d) (String.length d') then r else Some (d, h)
                        | None => Some (d, h)
                        end
      | _, _ => r
      end
  end.
(* ServeMux.match *)
Definition match_ (m : mux) (path : string) : option handler :=
  match exact m path with Some h => Some h | None => match longest m path with Some (_, h) => Some h | None => None end end.
(* ServeMux.shouldRedirectRLocked *)
Definition should_redirect (m : mux) (path : string) : bool :=
  match exact m path with
  | Some _ => false
  | None => negb (String.eqb path "") && match exact m (path ++ "/")%string with Some _ => negb (is_dir path) | None => false end
  end.

(* What a request is about *)
Inductive target :=
| TNotFound | TMoved (location : string) | TRedirect (location : string) | TFeatures | TModuleSources | TKnownModules | TKnownModule (key : string)
| TSourceDir | TSource (source : nat) (key : string) | TInstances | TInstance (id : string).

(* r.URL.Path[len(dir):] *)
Definition rest (dir path : string) : string := match strip dir path with Some x => x | None => "" end.
(* handler.go:172-425: the first parts of the path handlers *)
Definition target_of (h : handler) (path : string) : target :=
  match h with
  | HFeatures d => if String.eqb path d then TFeatures else TNotFound
  | HRedirect d => if String.eqb path d then TRedirect (d ++ "/")%string else TNotFound
  | HSources d => if String.eqb path d then TModuleSources else TNotFound
  | HInstances d => if Nat.eqb (String.length path) (String.length d) then TInstances else TInstance (rest d path)
  | HKnown d => if Nat.eqb (String.length path) (String.length d) then TKnownModules else TKnownModule (rest d path)
  | HSource base d s => if Nat.eqb (String.length path) (String.length d) then TSourceDir else TSource s (rest base path)
  end.
(* ServeMux.Handler, for a clean path *)
Definition locate (m : mux) (path : string) : target :=
  if should_redirect m path then TMoved (path ++ "/")%string
  else match match_ m path with Some h => target_of h path | None => TNotFound end.

(* Reply: the status code, if it doesn't depend on the action; the Allow and Location headers; what the method handler does *)
Inductive listing := LModules | LInstances | LSources.
Record reply := Reply { status : option Z; allow : option (list string); location : option string; list_ : option listing; outcome_ : option outcome }.
Definition code (z : Z) : reply := Reply (Some z) None None None None.
(* response.go:115-120 *)
Definition respondMethodNotAllowed (methods : list string) : reply := Reply (Some 405%Z) (Some methods) None None None.
(* response.go:88-90 *)
Definition setOptions (methods : list string) : reply := Reply (Some 200%Z) (Some methods) None None None.
Definition act_ (e : endpoint) (q : query) : reply := Reply None None None None (Some (handle e q)).
(* handler.go:431-435, 500-506, 681-687: a query isn't allowed *)
Definition list__ (l : listing) (q : query) : reply :=
  match q with [] => Reply None None None (Some l) None | _ => Reply (Some 400%Z) None None None None end.
Definition is_get (method : string) : bool := String.eqb method "GET" || String.eqb method "HEAD".
(* handler.go:172-425: the method switches *)
Definition serve (t : target) (method : string) (q : query) : reply :=
  match t with
  | TNotFound => code 404%Z
  | TMoved l => Reply (Some 301%Z) None (Some l) None None
  | TRedirect l =>
      if is_get method then Reply (Some 301%Z) None (Some l) None None
      else if String.eqb method "OPTIONS" then setOptions ["OPTIONS"] else respondMethodNotAllowed ["OPTIONS"]
  | TFeatures =>
      if is_get method then act_ GetFeatures q
      else if String.eqb method "OPTIONS" then setOptions ["OPTIONS"] else respondMethodNotAllowed ["OPTIONS"]
  | TModuleSources =>
      if is_get method then list__ LSources q
      else if String.eqb method "OPTIONS" then setOptions ["OPTIONS"] else respondMethodNotAllowed ["OPTIONS"]
  | TKnownModules =>
      if is_get method then code 204%Z
      else if String.eqb method "OPTIONS" then setOptions ["OPTIONS"; "POST"]
      else if String.eqb method "POST" then list__ LModules q
      else respondMethodNotAllowed ["OPTIONS"; "POST"]
  | TKnownModule _ =>
      if is_get method then act_ GetKnown q
      else if String.eqb method "PUT" then act_ PutKnown q
      else if String.eqb method "POST" then act_ PostKnown q
      else if String.eqb method "OPTIONS" then setOptions ["OPTIONS"; "POST"; "PUT"]
      else respondMethodNotAllowed ["OPTIONS"; "POST"; "PUT"]
  | TSourceDir =>
      if is_get method then code 204%Z
      else if String.eqb method "OPTIONS" then setOptions ["OPTIONS"] else respondMethodNotAllowed ["OPTIONS"]
  | TSource _ _ =>
      if is_get method then act_ GetSource q
      else if String.eqb method "POST" then act_ PostSource q
      else if String.eqb method "OPTIONS" then setOptions ["OPTIONS"; "POST"]
      else respondMethodNotAllowed ["OPTIONS"; "POST"]
  | TInstances =>
      if is_get method then code 204%Z
      else if String.eqb method "POST" then list__ LInstances q
      else if String.eqb method "OPTIONS" then setOptions ["OPTIONS"]
      else respondMethodNotAllowed ["OPTIONS"]
  | TInstance _ =>
      if is_get method then act_ GetInstance q
      else if String.eqb method "POST" then act_ PostInstance q
      else if String.eqb method "OPTIONS" then setOptions ["OPTIONS"; "POST"]
      else respondMethodNotAllowed ["OPTIONS"; "POST"]
  end.
Definition request (m : mux) (path method : string) (q : query) : reply := serve (locate m path) method q.
