(* ExitStatus.v: how the end of a program becomes a result, a trap, and the status of an
   instance: runtime/loader/*/runtime.S, runtime/abi/library.wat, runtime/process.go
   (Process.Serve), runtime/executor.go (execProcess control word) and
   server/instance.go (drive, startOrAnnihilate, trapStatus). *)
From Verif Require Export Base.

(* ---- trap ids, trap/trapid.go:14-30 ---- *)
Definition tExit : Z := 0.
Definition tSuspended : Z := 2.
Definition tUnreachable : Z := 3.
Definition tCallStackExhausted : Z := 4.
Definition tMemoryAccessOutOfBounds : Z := 5.
Definition tBreakpoint : Z := 10.
Definition tABIDeficiency : Z := 27.
Definition tABIViolation : Z := 28.
Definition tInternalError : Z := 29.
Definition tKilled : Z := 30.

(* ---- the program's side ---- *)

(* The ways in which a program ends that are decided by the runtime code inside the
   process. *)
Inductive ending :=
| Returned (result : Z)           (* start or entry function returned a 32-bit value *)
| ProcExit (status : Z)           (* proc_exit with a 32-bit value *)
| Trapped (id : Z)                (* compiled code trapped *)
| StackExhausted (suspending : bool)  (* stack check failed; bit 0 of the limit register *)
| Deficient                       (* unsupported ABI call *)
| OutOfBounds                     (* SIGSEGV or bad I/O buffer *)
| GrowFailed (addr : Z)           (* mprotect of memory at addr failed *)
| ReadFailed | WriteFailed.
Inductive arch := X86_64 | Aarch64.

(* x86_64/runtime.S:188-235 (signal exit and trap_handler), 284-287 (grow_memory puts the
   error code in eax while .Lexit takes edi, which holds the address given to mprotect),
   400-401,425-426,433 and 526-527 (rt_stop); aarch64/runtime.S:210-247,297-299.
   library.wat:161,228 etc. (127) and 536-543 (proc_exit). *)
Definition exit_code (a : arch) (e : ending) : Z :=
  match e with
  | Returned r => if r =? 0 then 0 else 1
  | ProcExit s => Z.lor (if s =? 0 then 0 else 1) 2
  | Trapped id => id + 100
  | StackExhausted s => if s then 102 else 104
  | Deficient => 127
  | OutOfBounds => 105
  | GrowFailed addr => match a with X86_64 => addr mod 2 ^ 32 | Aarch64 => 7 end
  | ReadFailed => 4
  | WriteFailed => 5
  end.
(* The kernel's encoding of exit_group(code), and of termination by a signal. *)
Definition exited_status (code : Z) : Z := (code mod 256) * 256.
Definition signaled_status (sig : Z) (core : bool) : Z := sig + (if core then 128 else 0).

(* ---- the control word, runtime/executor.go:288-336,338-350 ---- *)

Inductive ctl := Live | Finalized | Killed | Suspended.
Inductive ctl_op := CKill | CSuspend | CFinalize.
(* executor.go:317-321, 344-349: only a live process's word changes *)
Definition ctl_step (c : ctl) (o : ctl_op) : ctl :=
  match c with
  | Live => match o with CKill => Killed | CSuspend => Suspended | CFinalize => Finalized end
  | _ => c
  end.
Definition ctl_run (c : ctl) (l : list ctl_op) : ctl := fold_left ctl_step l c.
(* executor.go:310-312 *)
Definition killRequested (c : ctl) : bool := match c with Killed => true | _ => false end.

(* ---- runtime/process.go:269-333 Serve ---- *)

(* Go's syscall.WaitStatus *)
Definition Exited (w : Z) : bool := Z.land w 127 =? 0.
Definition ExitStatus (w : Z) : Z := Z.land (Z.shiftr w 8) 255.
Definition Signaled (w : Z) : bool := negb (Z.land w 127 =? 127) && negb (Z.land w 127 =? 0).
Definition Signal (w : Z) : Z := Z.land w 127.
Definition SIGKILL : Z := 9.
Definition SIGXCPU : Z := 24.

(* process.go:82-91 *)
Definition Terminated (code : Z) : bool := negb (Z.land code 2 =? 0).
Definition Value (code : Z) : Z := Z.land code 1.

Record served := Served { sv_code : Z; sv_trap : Z; sv_err : bool }.
(* io: None if the I/O loop returned normally, else whether the error blames the
   program.  fin: None if the executor is dead.  Lines 274-281, 289-332. *)
Definition Serve (io : option bool) (fin : option Z) (c : ctl) : served :=
  match io with
  | Some bad => Served 0 (if bad then tABIViolation else tInternalError) true
  | None =>
      match fin with
      | None => Served 0 tInternalError true
      | Some w =>
          if Exited w then
            let n := ExitStatus w in
            let over t := if killRequested c && ((t =? tExit) || (t =? tSuspended) || (t =? tBreakpoint) || (t =? tABIDeficiency)) then tKilled else t in
            if (0 <=? n) && (n <=? 3) then Served n (over tExit) false
            else if (100 <=? n) && (n <=? 127) then Served 0 (over (n - 100)) false
            else Served 0 tInternalError true
          else if Signaled w then
            if (Signal w =? SIGKILL) && killRequested c then Served 0 tKilled false
            else if Signal w =? SIGXCPU then Served 0 tSuspended false
            else Served 0 tInternalError true
          else Served 0 tInternalError true
      end
  end.

(* ---- server/instance.go ---- *)

(* server/api/server.proto:31-53; the numbering matters (instance.go:428) *)
Inductive state := Nonexistent | Running | StSuspended | Halted | StTerminated | StKilled.
Definition state_num (s : state) : Z :=
  match s with Nonexistent => 0 | Running => 1 | StSuspended => 2 | Halted => 3 | StTerminated => 4 | StKilled => 5 end.
Record status := Status { st_state : state; st_cause : Z; st_result : Z }.
Definition causeNormal : Z := 0.
Definition causeInternal : Z := 29.
(* What an instance image says about its past (image/instance.go:206-219):
   whether it has an entry address, and the snapshot's final flag, trap and result. *)
Record marks := Marks { m_entry : bool; m_final : bool; m_trap : Z; m_result : Z }.

(* instance.go:70-84 *)
Definition trapStatus (id : Z) : state * Z :=
  if id =? tSuspended then (StSuspended, causeNormal)
  else if (id =? tCallStackExhausted) || (id =? tABIDeficiency) || (id =? tBreakpoint) then (StSuspended, id)
  else if id =? tKilled then (StKilled, causeNormal)
  else (StKilled, id).
(* instance.go:163-184: the status of an instance that is created without running it *)
Definition status_of_image (m : marks) : status :=
  if m_final m then
    if m_trap m =? tExit then Status StTerminated causeNormal (m_result m)
    else Status StKilled (if m_trap m =? tKilled then causeNormal else m_trap m) 0
  else
    if m_trap m =? tExit then
      if m_entry m then Status StSuspended causeNormal 0 else Status Halted causeNormal (m_result m)
    else let (s, c) := trapStatus (m_trap m) in Status s c 0.

(* image/instance.go:289-330: CheckMutation fails, or it finds that the program was not
   started, or it updates the manifest. *)
Inductive mutation := MutErr | MutFresh | MutRan.
(* instance.go:420-510: drive after the process has been served.  The result is the
   status, and the image's marks. *)
Definition drive (transient : bool) (s : served) (mut : mutation) (stored : bool) (m : marks) : status * marks :=
  let finish (st : status) (entry : bool) :=
    (st, Marks entry (m_final m || (state_num StTerminated <=? state_num (st_state st))) (sv_trap s) (st_result st)) in
  let killed cause := Status StKilled cause 0 in
  if sv_err s then finish (killed (if sv_trap s =? tABIViolation then tABIViolation else causeInternal)) (m_entry m)
  else
    let entry := match mut with MutRan => false | _ => m_entry m end in
    match mut, sv_trap s =? tKilled with
    | MutErr, false => finish (killed causeInternal) entry
    | _, _ =>
        if (match mut with MutErr => false | _ => true end) && negb transient && negb stored then finish (killed causeInternal) entry
        else if sv_trap s =? tExit then
          finish (Status (if transient || Terminated (sv_code s) then StTerminated else Halted) causeNormal (Value (sv_code s))) entry
        else let (st, c) := trapStatus (sv_trap s) in finish (Status st c 0) entry
    end.
