(* Creds.v: model of internal/container/cred.go and namespace.go: which host user and group ids a container gets.
   Strings are lists of bytes; int is 64 bits wide. *)
From Verif Require Export Base.

(* strings.Split with a separator of one byte *)
Fixpoint split_on (sep : Z) (s : bytes) : list bytes :=
  match s with
  | [] => [[]]
  | c :: t => if c =? sep then [] :: split_on sep t
              else match split_on sep t with p :: r => (c :: p) :: r | [] => [[c]] end
  end.
(* strings.TrimSpace (of ASCII text: the other spaces of Unicode are left out) *)
Definition is_space (c : Z) : bool := ((9 <=? c) && (c <=? 13)) || (c =? 32).
Fixpoint trim_left (s : bytes) : bytes := match s with c :: t => if is_space c then trim_left t else s | [] => [] end.
Definition trim_space (s : bytes) : bytes := rev (trim_left (rev (trim_left s))).

(* strconv.ParseUint(s, 10, 64) without its overflow check, which is implied by the caller's *)
Fixpoint parse_digits (acc : Z) (s : bytes) : option Z :=
  match s with
  | [] => Some acc
  | c :: t => if (48 <=? c) && (c <=? 57) then parse_digits (10 * acc + (c - 48)) t else None
  end.
(* strconv.ParseInt(s, 10, 32) *)
Definition parse_int32 (s : bytes) : option Z :=
  let '(neg, d) := match s with
                        | c :: t => if c =? 43 then (false, t) else if c =? 45 then (true, t) else (false, s)
                        | [] => (false, s)
                        end in
  match d with
  | [] => None
  | _ => match parse_digits 0 d with
         | None => None
         | Some un => if neg then if 2 ^ 31 <? un then None else Some (- un)
                      else if 2 ^ 31 <=? un then None else Some un
         end
  end.

Fixpoint beqb (a b : bytes) : bool :=
  match a, b with [], [] => true | x :: a, y :: b => (x =? y) && beqb a b | _, _ => false end.

(* cred.go:18-24 *)
Record subids := SubIds { s_next : Z; s_end : Z }.
(* cred.go:35-56: one line at a time; the last one is the one that comes with io.EOF *)
Fixpoint parse_lines (username : bytes) (lines : list bytes) : option subids :=
  match lines with
  | [] => None
  | line :: rest =>
      match split_on 58 (trim_space line) with
      | name :: base :: count :: _ =>
          if beqb name username then
            match parse_int32 base, parse_int32 count with
            | Some base, Some count => Some (SubIds (base + 1) (base + count))
            | _, _ => None
            end
          else parse_lines username rest
      | _ => parse_lines username rest
      end
  end.
(* cred.go:26-57 parse; file: its content, or None if it can't be opened *)
Definition parse (file : option bytes) (username : bytes) : option subids :=
  match file with None => None | Some f => parse_lines username (split_on 10 f) end.

(* cred.go:59-78 getID; the fuel is the number of ids that are left *)
Fixpoint get_id_loop (fuel : nat) (reserved : list Z) (next end_ : Z) : option (Z * subids) :=
  match fuel with
  | O => None
  | S fuel =>
      if (next <? end_) && (next <=? 0xffffffff) then
        if existsb (fun r => (0 <? r) && (next =? r)) reserved then get_id_loop fuel reserved (next + 1) end_
        else Some (next, SubIds (next + 1) end_)
      else None
  end.
Definition get_id (reserved : list Z) (m : subids) : option (Z * subids) :=
  get_id_loop (Z.to_nat (s_end m - s_next m)) reserved (s_next m) (s_end m).

(* runtime/container/config.go: Cred, and NamespaceConfig's credentials *)
Record cred := Cred { c_uid : Z; c_gid : Z }.
Record creds := Creds { cr_container : cred; cr_executor : cred }.
(* user.Current (None: failure), os.Getuid, os.Getgid, the content of the files that are named by getSubuid and getSubgid *)
Record env := Env { e_user : option bytes; e_uid : Z; e_gid : Z; e_subuid : option bytes; e_subgid : option bytes }.

(* cred.go:100-124 (and :126-150, which is the same with group ids) *)
Definition pick (file : option bytes) (username : bytes) (self container executor : Z) : option (Z * Z) :=
  if (container =? 0) || (executor =? 0) then
    match parse file username with
    | None => None
    | Some m =>
        let reserved := [self; container; executor] in
        match (if container =? 0 then get_id reserved m else Some (container, m)) with
        | None => None
        | Some (container, m) =>
            match (if executor =? 0 then get_id reserved m else Some (executor, m)) with
            | None => None
            | Some (executor, _) => Some (container, executor)
            end
        end
    end
  else Some (container, executor).
(* cred.go:86-155 ParseCreds *)
Definition ParseCreds (e : env) (c : creds) : option creds :=
  let '(Creds (Cred cu cg) (Cred eu eg)) := c in
  if (cu =? 0) || (cg =? 0) || (eu =? 0) || (eg =? 0) then
    match e_user e with
    | None => None
    | Some username =>
        match pick (e_subuid e) username (e_uid e) cu eu with
        | None => None
        | Some (cu, eu) =>
            match pick (e_subgid e) username (e_gid e) cg eg with
            | None => None
            | Some (cg, eg) => Some (Creds (Cred cu cg) (Cred eu eg))
            end
        end
    end
  else Some c.

(* internal/container/common/common.go:30-33 *)
Definition ContainerCred : Z := 1.
Definition ExecutorCred : Z := 2.
(* syscall.SysProcIDMap: id inside, id outside, size *)
Definition idmap := list (Z * Z * Z).
(* namespace.go:34-62 setupNamespace and :65-85 configureUserNamespace, writeIdMap: the mappings of the user namespace, whether
   they are written by the Go runtime or by the external tools (whose arguments are the same numbers), and whether setgroups is
   enabled (with the tools, it is up to newgidmap).  single: NamespaceConfig.SingleUID *)
Definition id_maps (e : env) (single : bool) (c : creds) : idmap * idmap :=
  if single then ([(ContainerCred, e_uid e, 1)], [(ContainerCred, e_gid e, 1)])
  else ([(ContainerCred, c_uid (cr_container c), 1); (ExecutorCred, c_uid (cr_executor c), 1)],
        [(ContainerCred, c_gid (cr_container c), 1); (ExecutorCred, c_gid (cr_executor c), 1)]).
