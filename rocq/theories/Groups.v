(* Groups.v: model of process groups: which control group a program's process is made into.
   runtime/system/usergroup.go, runtime/group.go, runtime/executor.go (NewProcess, NewGroupProcess, GroupExecutor, fds), internal/container/cgroup.go
   (OpenCgroupFD, openDefaultCgroup), runtime/executor/executor.c (create_process, spawn_child, main), runtime/shard.go, and the factories of
   cmd/gate-server/main/servercmd.go.  Strings are lists of bytes.
   Left out: what happens in an executor (Executor.v); preparation and distribution of processes (Shard.v: they pass on factories' processes). *)
From Verif Require Export Scope Creds.

Definition prefix_dir : bytes := [47; 115; 121; 115; 47; 102; 115; 47; 99; 103; 114; 111; 117; 112; 47; 117; 110; 105; 102; 105; 101; 100].   (* /sys/fs/cgroup/unified *)
(* cgroup.go:77-86; exists: the directories that exist and may be opened.  path.Join of names without empty, . or .. parts. *)
Definition OpenCgroupFD (exists_ : bytes -> bool) (name : bytes) : res bytes :=
  let dir := prefix_dir ++ [47] ++ name in if exists_ dir then Ok dir else Err.

(* strconv.ParseUint(s, 10, 31) *)
Definition parse_uint31 (s : bytes) : option Z :=
  match s with
  | [] => None
  | _ => match parse_digits 0 s with Some n => if n <? 2 ^ 31 then Some n else None | None => None end
  end.
(* fmt's %d of a number that isn't negative *)
Fixpoint digits (fuel : nat) (n : Z) (acc : bytes) : bytes :=
  match fuel with
  | O => acc
  | S k => let acc := (48 + n mod 10) :: acc in if n <? 10 then acc else digits k (n / 10) acc
  end.
Definition format_d (n : Z) : bytes := digits 20 n [].
Definition slice_name (n : Z) : bytes :=   (* usergroup.go:38: user.slice/user-%d.slice *)
  [117; 115; 101; 114; 46; 115; 108; 105; 99; 101; 47; 117; 115; 101; 114; 45] ++ format_d n ++ [46; 115; 108; 105; 99; 101].

(* A request to an executor: which one, and the descriptor of a group (executor.go:376-392) *)
Record request := Request { r_executor : nat; r_group : option bytes }.
(* executor.go:111-122 *)
Definition NewProcess (e : nat) : request := Request e None.
Definition NewGroupProcess (e : nat) (g : option bytes) : request := match g with None => NewProcess e | Some d => Request e (Some d) end.
(* executor.go:404-422 GroupExecutor *)
Definition GroupExecutor_NewGroupProcess (e : nat) (own g : option bytes) : request :=
  NewGroupProcess e (match g with None => own | Some _ => g end).
Definition GroupExecutor_NewProcess (e : nat) (own : option bytes) : request := NewGroupProcess e own.

(* The executor's configuration: the control group for processes (cgroup.go:64-75), or that of the executor process itself.  executor.c:91-140,
   643-670: the descriptor of the request if there are three, or else the default one, or else no CLONE_INTO_CGROUP. *)
Inductive place := Own (e : nat) | Dir (d : bytes).
Definition clone_into (default : nat -> option bytes) (r : request) : place :=
  let cgroup_fd := match r_group r with Some d => Some d | None => default (r_executor r) end in
  match cgroup_fd with Some d => Dir d | None => Own (r_executor r) end.

(* usergroup.go:26-45; ctx: the context's user id; choice: the random executors (shard.go:56-58, and other's) *)
Definition userGrouper_NewProcess (exists_ : bytes -> bool) (choice other : nat) (userID : bytes) : res request :=
  match userID with
  | [] => Ok (NewProcess other)
  | _ => match parse_uint31 userID with
         | None => Err
         | Some id => do slice <- OpenCgroupFD exists_ (slice_name id); Ok (NewGroupProcess choice (Some slice))
         end
  end.

(* servercmd.go:330-361: the access policies, and the factories they go with *)
Inductive policy := Public | Ssh (m : keymap).
(* the context's user id: system.ContextUserID is "" if there is none *)
Definition authorized_user (p : policy) (pri : principal) (scope : option (list str)) : res bytes :=
  match p with
  | Public => Ok []                                                       (* server/access.go *)
  | Ssh m => do u <- Authorize m pri scope; Ok (match u with Some uid => uid | None => [] end)
  end.
Definition server_process (p : policy) (exists_ : bytes -> bool) (choice other : nat) (pri : principal) (scope : option (list str)) : res request :=
  do u <- authorized_user p pri scope;
  match p with
  | Public => Ok (NewProcess other)
  | Ssh _ => userGrouper_NewProcess exists_ choice other u
  end.
