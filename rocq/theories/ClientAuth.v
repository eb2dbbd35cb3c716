(* ClientAuth.v: model of how the command line client addresses a remote server and authorizes its requests (cmd/gate/main/remote.go:613-715),
   with the parts of Go's net/url which that depends on.  The server's side is Auth.v; its identity is scheme://authority/path/gate-0/
   (server/web/handler.go:120).
   Left out: user information, IPv6 hosts, percent-encoding, queries and fragments in addresses (none of the characters @ [ % ? # is treated
   specially), redirections, and the loopback check's name lookup (an oracle). *)
From Verif Require Export Auth.
From Coq Require Import String Ascii.
Local Notation length := List.length.

(** net/url *)

Definition letter (c : Z) : bool := (97 <=? c) && (c <=? 122) || (65 <=? c) && (c <=? 90).
Definition digit (c : Z) : bool := (48 <=? c) && (c <=? 57).
(* net/url getScheme: an error; no scheme; scheme and the rest *)
Inductive sres := SErr | SNone | SSome (scheme rest : bytes).
Fixpoint getScheme (acc s : bytes) {struct s} : sres :=
  match s with
  | [] => SNone
  | c :: t =>
      if letter c then getScheme (acc ++ [c]) t
      else if digit c || (c =? 43) || (c =? 45) || (c =? 46) then match acc with [] => SNone | _ => getScheme (acc ++ [c]) t end
      else if c =? 58 then match acc with [] => SErr | _ => SSome acc t end
      else SNone
  end.
(* strings.Cut, keeping the separator in the second part *)
Fixpoint cut (sep : Z) (s : bytes) : bytes * bytes :=
  match s with [] => ([], []) | c :: t => if c =? sep then ([], s) else let (a, b) := cut sep t in (c :: a, b) end.
Fixpoint has_prefix (p s : bytes) : bool :=
  match p, s with [], _ => true | x :: p, y :: s => (x =? y) && has_prefix p s | _, [] => false end.
(* strings.Contains *)
Fixpoint contains (sub s : bytes) : bool := has_prefix sub s || match s with [] => false | _ :: t => contains sub t end.
Definition has (c : Z) (s : bytes) : bool := existsb (fun x => x =? c) s.
(* net/url parseHost: what follows the last colon must be a port number or nothing. *)
Definition okHost (h : bytes) : bool := match cut 58 (rev h) with (_, []) => true | (p, _) => forallb digit p end.

Record url := Url { scheme : bytes; opaque : bytes; host : bytes; path : bytes }.
(* net/url Parse *)
Definition parseURL (s : bytes) : option url :=
  if existsb (fun c => (c <? 32) || (c =? 127)) s then None
  else
    let go (sch rest : bytes) :=
      if negb (has_prefix [47] rest) then
        match sch with
        | _ :: _ => Some (Url sch rest [] [])
        | [] => if has 58 (fst (cut 47 rest)) then None else Some (Url [] [] [] rest)
        end
      else if ((match sch with [] => false | _ => true end) || negb (has_prefix [47; 47; 47] rest)) && has_prefix [47; 47] rest then
        let (authority, p) := cut 47 (skipn 2 rest) in
        if okHost authority then Some (Url sch [] authority p) else None
      else Some (Url sch [] [] rest) in
    match getScheme [] s with
    | SErr => None
    | SNone => go [] s
    | SSome sch rest => go (map lower sch) rest
    end.
Definition nonempty (s : bytes) : bool := match s with [] => false | _ => true end.
(* net/url URL.String *)
Definition urlString (u : url) : bytes :=
  (if nonempty (scheme u) then scheme u ++ [58] else []) ++
  match opaque u with
  | _ :: _ => opaque u
  | [] =>
      (if (nonempty (scheme u) || nonempty (host u)) && (nonempty (host u) || nonempty (path u)) then [47; 47] else []) ++ host u ++
      (if nonempty (path u) && negb (has_prefix [47] (path u)) && nonempty (host u) then [47] else []) ++
      (if negb (nonempty (scheme u)) && negb (nonempty (host u)) && has 58 (fst (cut 47 (path u))) then [46; 47] else []) ++ path u
  end.

(** cmd/gate/main/remote.go *)

(* server/web/api/webapi.go: Path *)
Definition Path : bytes := bs "/gate-0/".
(* remote.go:613-640 makeURL without prelocate, without parameters.  None: an error (the URL is nil, which is dereferenced) *)
Definition makeURL (address uri : bytes) : option url :=
  parseURL ((if contains (bs "://") address then address else bs "https://" ++ address) ++ uri).
(* remote.go:661-666: None: the client exits.  Path is added to the path even if the URL is opaque. *)
Definition audienceURL (address : bytes) : option url :=
  match parseURL address with
  | None => None
  | Some u => Some (Url (match scheme u with [] => bs "https" | _ => scheme u end) (opaque u) (host u) (path u ++ Path))
  end.

(* sort.Strings *)
Fixpoint lex (a b : bytes) : bool :=
  match a, b with [], _ => true | _ :: _, [] => false | x :: a, y :: b => (x <? y) || ((x =? y) && lex a b) end.
Fixpoint ins (x : bytes) (l : list bytes) : list bytes :=
  match l with [] => [x] | y :: t => if lex x y then x :: l else y :: ins x t end.
Definition sort (l : list bytes) : list bytes := fold_right ins [] l.
(* strings.Join(a, " ") *)
Definition Join (ws : list bytes) : bytes :=
  match ws with [] => [] | w :: t => w ++ flat_map (fun x => 32 :: x) t end.
(* remote.go:668-675; now: time.Now().Unix() *)
Definition clientClaims (address : bytes) (scopes : list bytes) (now : Z) : option claims :=
  match audienceURL address with
  | None => None
  | Some u => Some (Claims (now + 60) [urlString u] [] (Join (sort scopes)))
  end.

(* The client's identity file: not configured; the key with its sign function; empty.  (Other contents make the client exit.) *)
Inductive identity_file := NoFile | Key (pub : bytes) (sign : bytes -> bytes) | EmptyFile.
(* remote.go:656-715 makeAuthorization.  marshalHeader, marshalClaims: json.Marshal; loopback: whether all the addresses of a host are loopback
   addresses.  None: the client exits; Some []: no authorization *)
Definition makeAuthorization (marshalHeader : header -> bytes) (marshalClaims : claims -> bytes) (loopback : bytes -> bool)
    (file : identity_file) (address : bytes) (scopes : list bytes) (now : Z) : option bytes :=
  match file with
  | NoFile => Some []
  | _ =>
      match audienceURL address, clientClaims address scopes now with
      | Some u, Some c =>
          match file with
          | Key pub sign => Some (AuthorizationBearerEd25519 sign (MustEncode marshalHeader (TokenHeaderEdDSA (PublicKeyEd25519 pub))) (marshalClaims c))
          | _ => if negb (beq (scheme u) (bs "http")) then None
                 else if loopback (fst (cut 58 (host u))) then Some (AuthorizationBearerLocal marshalHeader (marshalClaims c)) else None
          end
      | _, _ => None
      end
  end.
(* remote.go:574-592 doHTTP: the Authorization header's values *)
Definition headerValues (auth : bytes) : list bytes := match auth with [] => [] | _ => [auth] end.
