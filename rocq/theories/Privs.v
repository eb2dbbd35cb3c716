(* Privs.v: what the container, the executor and the loader do to their own process before a program is started:
   internal/container/child/container.go, runtime/executor/executor.c (main, spawn_child, execute_child),
   runtime/loader/loader.c (main); for x86-64, not Android, page size 4096, with GATE_SANDBOX and common.Sandbox.
   Left out: file descriptors (Fds.v), signal dispositions, cgroups, personality, memory (Sandbox.v), the seccomp filter (Sandbox.v). *)
From Verif Require Export Base.

(** ** The kernel *)
(* Capabilities by number.  capabilities(7) *)
Definition CAP_DAC_OVERRIDE : Z := 1.
Definition CAP_SETGID : Z := 6.
Definition CAP_SETUID : Z := 7.
Definition CAP_SYS_ADMIN : Z := 21.
Inductive where_ := InHost | InRoot | InX.
(* The mount namespace: whether mounts propagate to the host; what is at /tmp; whether the procfs is mounted, opened; directories
   proc and x of the tmpfs; whether the root is the tmpfs; whether the old root can be reached; current directory; whether the
   new root is writable *)
Record mounts := Mounts {
  m_private : bool; m_tmpfs : bool; m_procdir : bool; m_procmnt : bool; m_procfd : bool; m_xdir : bool;
  m_pivoted : bool; m_oldroot : bool; m_cwd : where_; m_writable : bool }.
(* ids are numbers inside the user namespace (or None if the host id isn't mapped) *)
Record proc := Proc {
  k_uid : option Z; k_gid : option Z; k_groups : list Z; k_permitted : list Z; k_ambient : list Z;
  k_nnp : bool; k_pdeath : bool; k_dumpable : bool; k_umask : Z; k_rlim : Z -> option Z; k_host : bool; k_mnt : mounts }.
Definition holds (p : proc) (c : Z) : bool := existsb (Z.eqb c) (k_permitted p).
Definition oeqb (a b : option Z) : bool := match a, b with Some x, Some y => x =? y | None, None => true | _, _ => false end.

(* Resources by number.  setrlimit(2) *)
Definition RLIMIT_CPU : Z := 0.
Definition RLIMIT_FSIZE : Z := 1.
Definition RLIMIT_DATA : Z := 2.
Definition RLIMIT_STACK : Z := 3.
Definition RLIMIT_CORE : Z := 4.
Definition RLIMIT_NPROC : Z := 6.
Definition RLIMIT_NOFILE : Z := 7.
Definition RLIMIT_MEMLOCK : Z := 8.
Definition RLIMIT_AS : Z := 9.
Definition RLIMIT_SIGPENDING : Z := 11.
Definition RLIMIT_MSGQUEUE : Z := 12.
Definition RLIMIT_RTPRIO : Z := 14.

Inductive sys :=
| Setrlimit (r v : Z) | Umask (v : Z) | Setreuid (id : Z) | Setregid (id : Z) | SetgroupsNone
| SethostnameEmpty | SetdomainnameEmpty | MountPrivate | MountTmpfs | MkdirProc | MountProc | OpenProc | UnmountProc | RemoveProc
| MkdirX | PivotRoot | ChdirRoot | UnmountOld | ChdirX | RemountReadOnly
| CapsetZero | AmbientClear | SetPdeathsig | SetNoNewPrivs | SetNotDumpable | Fork | Exec | CheckParent.

Definition set_mnt (p : proc) (m : mounts) : proc :=
  Proc (k_uid p) (k_gid p) (k_groups p) (k_permitted p) (k_ambient p) (k_nnp p) (k_pdeath p) (k_dumpable p) (k_umask p) (k_rlim p) (k_host p) m.
(* A change of credentials clears the parent death signal and the dumpable attribute (prctl(2)) *)
Definition set_ids (p : proc) (uid gid : option Z) : proc :=
  let same := oeqb uid (k_uid p) && oeqb gid (k_gid p) in
  Proc uid gid (k_groups p) (k_permitted p) (k_ambient p) (k_nnp p) (same && k_pdeath p) (same && k_dumpable p) (k_umask p) (k_rlim p) (k_host p) (k_mnt p).
(* The effect of a system call; None if it fails because of the process's state.  ns: in a new set of namespaces *)
Definition sysdo (x : sys) (p : proc) : option proc :=
  let 'Proc uid gid groups perm amb nnp pd dump um rl host m := p in
  let admin (r : option proc) := if holds p CAP_SYS_ADMIN then r else None in
  let 'Mounts pr tm pdir pmnt pfd xd piv old cwd wr := m in
  match x with
  | Setrlimit r v => if match rl r with Some h => v <=? h | None => true end
                     then Some (Proc uid gid groups perm amb nnp pd dump um (fun r' => if r' =? r then Some v else rl r') host m) else None
  | Umask v => Some (Proc uid gid groups perm amb nnp pd dump v rl host m)
  | Setreuid id => if holds p CAP_SETUID || oeqb (Some id) uid then Some (set_ids p (Some id) gid) else None
  | Setregid id => if holds p CAP_SETGID || oeqb (Some id) gid then Some (set_ids p uid (Some id)) else None
  | SetgroupsNone => if holds p CAP_SETGID then Some (Proc uid gid [] perm amb nnp pd dump um rl host m) else None
  | SethostnameEmpty | SetdomainnameEmpty => admin (Some (Proc uid gid groups perm amb nnp pd dump um rl false m))
  | MountPrivate => admin (Some (set_mnt p (Mounts true tm pdir pmnt pfd xd piv old cwd wr)))
  | MountTmpfs => admin (Some (set_mnt p (Mounts pr true pdir pmnt pfd xd piv old cwd true)))
  | MkdirProc => if tm && negb (piv || pdir) && holds p CAP_DAC_OVERRIDE then Some (set_mnt p (Mounts pr tm true pmnt pfd xd piv old cwd wr)) else None
  | MountProc => admin (if pdir then Some (set_mnt p (Mounts pr tm pdir true pfd xd piv old cwd wr)) else None)
  | OpenProc => if pmnt then Some (set_mnt p (Mounts pr tm pdir pmnt true xd piv old cwd wr)) else None
  | UnmountProc => admin (if pmnt then Some (set_mnt p (Mounts pr tm pdir false pfd xd piv old cwd wr)) else None)
  | RemoveProc => if pdir && negb pmnt && holds p CAP_DAC_OVERRIDE then Some (set_mnt p (Mounts pr tm false pmnt pfd xd piv old cwd wr)) else None
  | MkdirX => (* nr_inodes=2: the root directory and one more *)
      if tm && negb (piv || pdir || xd) && holds p CAP_DAC_OVERRIDE then Some (set_mnt p (Mounts pr tm pdir pmnt pfd true piv old cwd wr)) else None
  | PivotRoot => admin (if tm && xd && pr then Some (set_mnt p (Mounts pr tm pdir pmnt pfd xd true old cwd wr)) else None)
  | ChdirRoot => Some (set_mnt p (Mounts pr tm pdir pmnt pfd xd piv old (if piv then InRoot else InHost) wr))
  | UnmountOld => admin (if piv then Some (set_mnt p (Mounts pr tm pdir pmnt pfd xd piv false cwd wr)) else None)
  | ChdirX => if piv && xd && holds p CAP_DAC_OVERRIDE then Some (set_mnt p (Mounts pr tm pdir pmnt pfd xd piv old InX wr)) else None
  | RemountReadOnly => admin (if piv then Some (set_mnt p (Mounts pr tm pdir pmnt pfd xd piv old cwd false)) else None)
  | CapsetZero => (* lowering permitted capabilities lowers ambient ones *) Some (Proc uid gid groups [] [] nnp pd dump um rl host m)
  | AmbientClear => Some (Proc uid gid groups perm [] nnp pd dump um rl host m)
  | SetPdeathsig => Some (Proc uid gid groups perm amb nnp true dump um rl host m)
  | SetNoNewPrivs => Some (Proc uid gid groups perm amb true pd dump um rl host m)
  | SetNotDumpable => Some (Proc uid gid groups perm amb nnp pd false um rl host m)
  | Fork => (* the child's view *) Some (Proc uid gid groups perm amb nnp false dump um rl host m)
  | Exec => (* of an executable without set-user-id and file capabilities, by a nonroot user *)
      Some (Proc uid gid groups amb amb nnp pd true um rl host m)
  | CheckParent => Some p
  end.

(** ** The programs: the system calls of a run without errors; true: an error is ignored *)
Definition prog := list (sys * bool).
Definition must (l : list sys) : prog := map (fun x => (x, false)) l.

(* internal/container/common/common.go:30-33 *)
Definition CONTAINER_CRED : Z := 1.
Definition EXECUTOR_CRED : Z := 2.
(* container.go:25-37 *)
Definition executorStackSize : Z := 65536.
Definition loaderStackSize : Z := 12288.
Definition limitAS : Z := loaderStackSize + 0x1000 + 0x1000 + 0x80000000 + 0x80000000 + 0x1000 + 0x80000000.
(* limit_fsize.go *)
Definition limitFSIZE : Z := 0.
(* container.go:118-127 *)
Definition setCred (id : Z) : list sys := [Setreuid id; Setregid id].
(* container.go:129-204 *)
Definition furnishNamespaces : list sys :=
  [SethostnameEmpty; SetdomainnameEmpty; MountPrivate; MountTmpfs; MkdirProc; MountProc; OpenProc; UnmountProc; RemoveProc;
   MkdirX; PivotRoot; ChdirRoot; UnmountOld; ChdirX; RemountReadOnly].
(* container.go:211-330 childMain, from the point where the parent has closed the pipe; openProcPath("/proc") is left out *)
Definition childMain (disabled single : bool) : prog :=
  [(Setrlimit RLIMIT_NOFILE 1048576, true)] ++
  must ([Umask 511; Setrlimit RLIMIT_FSIZE limitFSIZE; Setrlimit RLIMIT_MEMLOCK 0; Setrlimit RLIMIT_MSGQUEUE 0;
         Setrlimit RLIMIT_RTPRIO 0; Setrlimit RLIMIT_SIGPENDING 0] ++
    (if disabled then []
     else setCred CONTAINER_CRED ++ (if single then [] else [SetgroupsNone]) ++ furnishNamespaces ++
          (if single then [] else setCred EXECUTOR_CRED) ++
          [Setrlimit RLIMIT_AS limitAS; Setrlimit RLIMIT_CORE 0; Setrlimit RLIMIT_STACK executorStackSize]) ++
    [CapsetZero; AmbientClear; SetPdeathsig; CheckParent; Exec]).
(* runtime.h *)
Definition GATE_LIMIT_DATA : Z := 0x1000.
Definition GATE_LIMIT_NOFILE : Z := 5.
(* executor.c:618: 3 + 4 + 1 + 3 + 2 + ID_PROCS *)
Definition NOFILE : Z := 3 + 4 + 1 + 3 + 2 + 16384.
(* executor.c:620-687 main *)
Definition executor_main : prog :=
  must [SetPdeathsig; SetNoNewPrivs; CapsetZero; SetNotDumpable; Setrlimit RLIMIT_DATA GATE_LIMIT_DATA;
        Setrlimit RLIMIT_STACK loaderStackSize; Setrlimit RLIMIT_NOFILE NOFILE].
(* executor.c:79-112 spawn_child, execute_child *)
Definition spawn_child : prog := must [Fork; Exec].
(* loader.c:266-312 main, before the program is loaded *)
Definition loader_main : prog :=
  must [SetPdeathsig; Setrlimit RLIMIT_NOFILE GATE_LIMIT_NOFILE; Setrlimit RLIMIT_NPROC 0; SetNotDumpable].
Definition to_guest (disabled single : bool) : prog :=
  childMain disabled single ++ executor_main ++ spawn_child ++ loader_main.

(* A run.  faults: for each system call, whether it fails although the state would allow it.  None: the process has exited *)
Fixpoint run (l : prog) (faults : list bool) (p : proc) : option proc :=
  match l with
  | [] => Some p
  | (x, ignore) :: l =>
      let fault := hd false faults in
      match (if fault then None else sysdo x p) with
      | Some p => run l (tl faults) p
      | None => if ignore then run l (tl faults) p else None
      end
  end.

(* The parent process dies after n system calls.  SIGKILL comes at once if it has been requested.  If it is requested after that,
   it doesn't come; for that case there is a check of the parent's process id (container.go:306-308), which is 1 if the process
   has been reparented, but 0 as long as it is the first process in its namespace. *)
Definition getppid_is_1 (disabled parent_dead : bool) : bool := disabled && parent_dead.
Fixpoint run_orphan (disabled : bool) (l : prog) (p : proc) : option proc :=
  match l with
  | [] => Some p
  | (x, ignore) :: l =>
      match x with
      | CheckParent => if getppid_is_1 disabled true then None else run_orphan disabled l p
      | _ => match sysdo x p with
             | Some p => run_orphan disabled l p
             | None => if ignore then run_orphan disabled l p else None
             end
      end
  end.
Definition run_dying (disabled : bool) (n : nat) (l : prog) (p : proc) : option proc :=
  match run (firstn n l) [] p with
  | None => None
  | Some p => if k_pdeath p then None else run_orphan disabled (skipn n l) p
  end.

(* parent.go:46-69, namespace.go:34-62: the container's process when it has been started: in new namespaces the capabilities are
   ambient; the parent death signal has been requested; uid, gid: None unless NamespaceConfig.SingleUID; gs, rl: the server's *)
Definition new_mounts : mounts := Mounts false false false false false false false true InHost false.
Definition child_init (single : bool) (gs : list Z) (um : Z) (rl : Z -> option Z) : proc :=
  let id := if single then Some CONTAINER_CRED else None in
  let caps := [CAP_DAC_OVERRIDE; CAP_SETGID; CAP_SETUID; CAP_SYS_ADMIN] in
  Proc id id gs caps caps false true true um rl true new_mounts.
