(* Scope.v: model of scope/scope.go and server/sshkeys/authorized_keys.go.
   Strings are lists of bytes. *)
From Verif Require Export Base.

Definition str := bytes.
Fixpoint seqb (a b : str) : bool :=
  match a, b with [], [] => true | x :: a, y :: b => (x =? y) && seqb a b | _, _ => false end.

(* The regular expression \b: between an ASCII word character and anything else. *)
Definition word (c : Z) : bool :=
  ((48 <=? c) && (c <=? 57)) || ((65 <=? c) && (c <=? 90)) || ((97 <=? c) && (c <=? 122)) || (c =? 95).
(* [a-z0-9-._] *)
Definition alias_char (c : Z) : bool :=
  ((97 <=? c) && (c <=? 122)) || ((48 <=? c) && (c <=? 57)) || (c =? 45) || (c =? 46) || (c =? 95).

(* scope.go:14-21: .*\b([a-z0-9-._]+)$  The greedy .* takes as much as it can, so
   the group is the shortest nonempty suffix of alias characters that begins at
   a word boundary.  (A newline, which . does not match, is not an alias
   character, so it does not restrict where the group begins.)  prev: wordness
   of the preceding character, false at the beginning. *)
Fixpoint match_from (prev : bool) (s : str) : str :=
  match s with
  | [] => []
  | c :: t =>
      match match_from (word c) t with
      | [] => if negb (eqb prev (word c)) && forallb alias_char s then s else []
      | m => m
      end
  end.
Definition MatchAlias (s : str) : str := match_from false s.

(* map[string]string *)
Definition smap := list (str * str).
Fixpoint get (m : smap) (k : str) : option str :=
  match m with [] => None | (k', v) :: t => if seqb k' k then Some v else get t k end.
Definition del (m : smap) (k : str) : smap := filter (fun x => negb (seqb (fst x) k)) m.
Definition mem (l : list str) (k : str) : bool := existsb (seqb k) l.

(* scope.go:23-45 ComputeAliases: first loop *)
Fixpoint alias_loop (scope : list str) (aliases : smap) (unalias : list str) : smap * list str :=
  match scope with
  | [] => (aliases, unalias)
  | s :: t =>
      match MatchAlias s with
      | [] => alias_loop t aliases unalias
      | a => match get aliases a with
             | Some _ => alias_loop t aliases (a :: unalias)
             | None => alias_loop t ((a, s) :: aliases) unalias
             end
      end
  end.
(* second loop *)
Fixpoint unalias_loop (scope : list str) (aliases : smap) (unalias : list str) : smap :=
  match scope with
  | [] => aliases
  | s :: t => unalias_loop t (if mem unalias (MatchAlias s) then del aliases (MatchAlias s) else aliases) unalias
  end.
Definition ComputeAliases (scope : list str) : smap :=
  let ' (a, u) := alias_loop scope [] [] in unalias_loop scope a u.

(* scope.go:47-61: the registered names.  They are kept sorted; the order has no
   effect on what is observable here except Names. *)
Definition Register (names : list str) (name : str) : res (list str) :=
  if existsb (fun s => seqb s name) names then Panic else Ok (names ++ [name]).
Fixpoint registers (names : list str) (l : list str) : res (list str) :=
  match l with [] => Ok names | n :: t => do names <- Register names n; registers names t end.

(* scope.go:67-72 *)
Definition Resolve (names : list str) (s : str) : str :=
  match get (ComputeAliases names) s with Some x => x | None => s end.

(* scope.go:76-90: a context's scope value, or none. *)
Definition Context (names : list str) (ctx : option (list str)) (scope : list str) : option (list str) :=
  match scope, ctx with
  | [], None => None
  | _, _ => Some (map (Resolve names) scope)
  end.
(* scope.go:92-105 *)
Definition ContextContains (ctx : option (list str)) (scope : str) : bool :=
  match ctx with None => false | Some l => existsb (fun s => seqb s scope) l end.

(* ---- server/sshkeys/authorized_keys.go ---- *)

(* What ssh.ParseAuthorizedKey (a dependency) finds in the text, in order. *)
Inductive entry :=
| EKey (key : bytes)   (* an ssh-ed25519 key *)
| EBadKey              (* an ssh-ed25519 key of a wrong length *)
| EOther               (* a key of another type *)
| EError.              (* a parse error *)
Definition keymap := list (bytes * str).
Fixpoint kget (m : keymap) (k : bytes) : option str :=
  match m with [] => None | (k', v) :: t => if seqb k' k then Some v else kget t k end.

(* authorized_keys.go:45-78 Parse: the map after it, and whether it returned nil. *)
Fixpoint Parse (m : keymap) (uid : str) (text : list entry) : keymap * bool :=
  match text with
  | [] => (m, true)
  | EError :: _ => (m, false)
  | EBadKey :: _ => (m, false)
  | EOther :: t => Parse m uid t
  | EKey k :: t =>
      match kget m k with
      | Some x => if seqb x uid then Parse ((k, uid) :: m) uid t else (m, false)
      | None => Parse ((k, uid) :: m) uid t
      end
  end.
Fixpoint ParseAll (m : keymap) (fs : list (str * list entry)) : keymap :=
  match fs with [] => m | (uid, text) :: t => ParseAll (fst (Parse m uid text)) t end.

(* internal/principal: the local principal has the zero key (principal.go:27). *)
Inductive principal := PNone | PLocal | PKey (k : bytes).
Definition raw (p : principal) : bytes := match p with PKey k => k | _ => repeat 0 32 end.
(* authorized_keys.go:80-95: unauthorized, forbidden (Err), or the context with
   the user id if the system scope is granted. *)
Definition system_scope : str := [112; 114; 111; 103; 114; 97; 109; 58; 115; 121; 115; 116; 101; 109].
Definition Authorize (m : keymap) (p : principal) (ctx : option (list str)) : res (option str) :=
  match p with
  | PNone => Err
  | _ => match kget m (raw p) with
         | None => Err
         | Some uid => Ok (if ContextContains ctx system_scope then Some uid else None)
         end
  end.
