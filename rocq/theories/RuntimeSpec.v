(* RuntimeSpec.v: what the runtime functions of a guest process find when they are called, and how their
   executions are observed. *)
From Verif Require Export Asm RuntimeAsm.
Local Open Scope Z_scope.

(** ** Executions *)

(* The code, continued from an event, comes to another *)
Fixpoint continue_ (code : list ins) (n : nat) (e : event) : event :=
  match n, e with
  | S k, More s => continue_ code k (step code s)
  | _, _ => e
  end.
Definition comes_to (e e' : event) : Prop := exists n, continue_ runtime n e = e'.

(** ** Process *)

(* The bits of the stack limit register that tell the guest program to suspend at calls and loops *)
Definition suspend_mask : Z := 2 ^ 62 + 1.
(* runtime.h: GATE_STACK_LIMIT_OFFSET *)
Definition stack_limit_offset : Z := 9984.

(* The guest program has called an import: the stack limit register refers to the stack's variables, r15 to
   the program text; the stack pointer is well above the variables (runtime.h reserves 9920 bytes
   between); stack and import vector (below the text) don't overlap.  The runtime's code is
   below the vector (loader.c:344-368), and the C function is elsewhere. *)
Record imported (s : cpu) (sp text vars : Z) : Prop := Imported {
  im_sp : rget rsp (rg s) = sp;
  im_text : rget r15 (rg s) = text;
  im_limit : Z.land (rget rbx (rg s)) (2 ^ 64 - 1 - suspend_mask) = vars + stack_limit_offset;
  im_regs : forall r, 0 <= rget r (rg s) < 2 ^ 64;
  im_mem : forall a, 0 <= mm s a < 256;
  im_range : 0 <= vars /\ vars + 512 <= sp /\ sp + 24 <= 2 ^ 47 /\ 4096 <= text < 2 ^ 47;
  im_apart : text <= vars \/ sp + 24 <= text - 88;
  im_code : 0 <= cbase s /\ cbase s + Z.of_nat (length runtime) <= text - 88;
  im_vdso : ~ (cbase s <= ld 8 (mm s) (text - 88) < cbase s + Z.of_nat (length runtime));
}.

(* Import vector, loader.c:349-368 *)
Definition v_clock_gettime (m : Z -> Z) (text : Z) : Z := ld 8 m (text - 88).
Definition v_time_base (m : Z -> Z) (text : Z) : Z := ld 8 m (text - 80).
Definition v_time_mask (m : Z -> Z) (text : Z) : Z := ld 4 m (text - 72).
Definition v_random (m : Z -> Z) (text i : Z) : Z := m (text - 64 + i).
Definition v_grow_limit (m : Z -> Z) (text : Z) : Z := ld 8 m (text - 40).
Definition v_memory (m : Z -> Z) (text : Z) : Z := ld 8 m (text - 32).

(* Stack variables, runtime.h / loader.c:58-67 *)
Definition s_unused (m : Z -> Z) (vars : Z) : Z := ld 4 m vars.
Definition s_pages (m : Z -> Z) (vars : Z) : Z := ld 4 m (vars + 4).
Definition s_monotonic (m : Z -> Z) (vars : Z) : Z := ld 8 m (vars + 8).
Definition s_random_avail (m : Z -> Z) (vars : Z) : Z := ld 4 m (vars + 16).
Definition s_suspend (m : Z -> Z) (vars : Z) : Z := ld 4 m (vars + 20).

(* Arguments of an import: the last one is next to the return address *)
Definition arg1 (m : Z -> Z) (sp : Z) : Z := ld 4 m (sp + 16).
Definition arg2 (m : Z -> Z) (sp : Z) : Z := ld 4 m (sp + 8).

(** ** The C function clock_gettime *)

(* It has been called (state s1) and returns: result, what it stored, and whether a suspend signal came
   meanwhile.  It keeps the registers that the C calling convention says, and changes memory only below its
   stack frame. *)
Definition clock_returns (s1 : cpu) (vars : Z) (ok : bool) (sec nsec : Z) (signal : bool) (e : event) : Prop :=
  exists result c d i j x f h k m,
    e = c_return runtime s1 result c d i j x f h k m /\ (if ok then u64 result mod 2 ^ 32 = 0 else u64 result mod 2 ^ 32 <> 0) /\
    Forall (fun v => 0 <= v < 2 ^ 64) [c; d; i; j; x; f; h; k] /\
    (forall a, 0 <= m a < 256) /\
    ld 8 m (rget rsi (rg s1)) = sec /\ ld 8 m (rget rsi (rg s1) + 8) = nsec /\
    ld 4 m (vars + 20) = (if signal then Z.lor (ld 4 (mm s1) (vars + 20)) 1 else ld 4 (mm s1) (vars + 20)) /\
    (forall a, ~ (vars + 64 <= a < rget rsp (rg s1)) ->
               ~ (rget rsi (rg s1) <= a < rget rsi (rg s1) + 16) ->
               ~ (vars + 20 <= a < vars + 24) -> m a = mm s1 a).

(* Memory is as it was, except below an address of the stack, and in the listed variables *)
Definition same_except (m m' : Z -> Z) (vars sp : Z) (fields : list (Z * Z)) : Prop :=
  forall a, ~ (vars + 64 <= a < sp) -> (forall f n, In (f, n) fields -> ~ (vars + f <= a < vars + f + n)) -> m' a = m a.

(** ** Clocks *)

(* A clock's reading as nanoseconds, with the nanoseconds within the second masked *)
Definition nanoseconds (sec nsec mask : Z) : Z := sec * 10 ^ 9 + Z.land nsec mask.
(* What the guest sees: clock 6 (CLOCK_MONOTONIC_COARSE) has been shifted so that it continues from the time
   stored in the stack; the others are as they are *)
Definition guest_time (m : Z -> Z) (text vars clk sec nsec : Z) : Z :=
  let t := nanoseconds sec nsec (v_time_mask m text) in
  if clk =? 6 then (s_monotonic m vars + (t - v_time_base m text)) mod 2 ^ 64 else t.
(* The stack limit register after a function that has noticed a suspend request *)
Definition limit_after (limit : Z) (suspended : bool) : Z := if suspended then Z.lor limit suspend_mask else limit.

(** ** Guest program's side *)

(* The routine at text + 16 (wag object ABI: resume) returns to the address on top of the stack.  The result
   (rax), the stack limit and text registers, and memory are kept.  (Assumption about generated code.) *)
Definition resume_returns (s : cpu) (e : event) : Prop :=
  exists c d p i j x f h k l m n,
    let g := Regs (rget rax (rg s)) c d (rget rbx (rg s)) (rget rsp (rg s)) p i j x f h k l m n (rget r15 (rg s)) in
    let (a, s') := pop (Cpu g None None (pc s) (cbase s) (mm s)) in
    e = goto (length runtime) a s'.

(** ** Exit *)

Definition SYS_exit_group : Z := 231.
(* At exit_group(code), with what the stack's variables say *)
Record exiting (s s4 : cpu) (sp vars code time : Z) : Prop := Exiting {
  ex_call : rget rax (rg s4) = SYS_exit_group;
  ex_code : rget rdi (rg s4) = code;
  ex_unused : s_unused (mm s4) vars = (sp - vars) mod 2 ^ 32;
  ex_time : s_monotonic (mm s4) vars = time;
  ex_rest : same_except (mm s) (mm s4) vars sp [(0, 4); (8, 8); (20, 4)];
}.
(* The process reads the clock and exits.  The stack pointer (where the stack will be cut for the snapshot)
   is sp. *)
Definition exits_with (s : cpu) (sp text vars code : Z) : Prop :=
  exists s1, comes_to (More s) (Outside (v_clock_gettime (mm s) text) s1) /\ rget rdi (rg s1) = 6 /\
  (forall sec nsec sg e, clock_returns s1 vars true sec nsec sg e -> 0 <= sec < 2 ^ 33 -> 0 <= nsec < 10 ^ 9 ->
     exists s2, comes_to e (Outside (text + 16) s2) /\
     forall e3, resume_returns s2 e3 ->
     exists s4, comes_to e3 (AtSyscall s4) /\ exiting s s4 sp vars code (guest_time (mm s) text vars 6 sec nsec)) /\
  (forall sec nsec sg e, clock_returns s1 vars false sec nsec sg e ->
     exists s4, comes_to e (AtSyscall s4) /\
     rget rax (rg s4) = SYS_exit_group /\ rget rdi (rg s4) = 9 /\ s_monotonic (mm s4) vars = 2 ^ 64 - 1).

(** ** Return to the guest program *)

(* The function returns a result: control goes to the resume routine, with the stack pointer, the text
   register and the stack limit as they were (but a suspend request may have been noticed), and memory as
   it was except for the listed variables and what is below the stack pointer. *)
Record resumed (s s2 : cpu) (sp text vars result : Z) (suspended : bool) (fields : list (Z * Z)) : Prop := Resumed {
  re_result : rget rax (rg s2) = result;
  re_sp : rget rsp (rg s2) = sp;
  re_text : rget r15 (rg s2) = text;
  re_limit : rget rbx (rg s2) = limit_after (rget rbx (rg s)) suspended;
  re_rest : same_except (mm s) (mm s2) vars sp fields;
}.
Definition resumes (s : cpu) (sp text vars result : Z) (fields : list (Z * Z)) (more : cpu -> Prop) : Prop :=
  exists s2, comes_to (More s) (Outside (text + 16) s2) /\ resumed s s2 sp text vars result false fields /\ more s2.
Definition no_more (s2 : cpu) : Prop := True.

(** ** System calls *)

Definition SYS_read : Z := 0.
Definition SYS_write : Z := 1.
Definition SYS_mprotect : Z := 10.
Definition SYS_munmap : Z := 11.
Definition SYS_ppoll : Z := 271.
Definition SYS_seccomp : Z := 317.
(* A system call is made, with three arguments *)
Definition calls (s : cpu) (nr a1 a2 a3 : Z) (k : cpu -> Prop) : Prop :=
  exists s1, comes_to (More s) (AtSyscall s1) /\
    rget rax (rg s1) = nr /\ rget rdi (rg s1) = a1 /\ rget rsi (rg s1) = a2 /\ rget rdx (rg s1) = a3 /\ k s1.

(* Guest memory (the address space reserved for it is 4 GB) is apart from stack and import vector *)
Definition memory_apart (s : cpu) (sp text vars : Z) : Prop :=
  let M := v_memory (mm s) text in
  0 <= M /\ M + 2 ^ 32 <= 2 ^ 47 /\ (M + 2 ^ 32 <= vars \/ sp + 24 <= M) /\ (M + 2 ^ 32 <= text - 88 \/ text <= M).
(* The size of guest memory, as the I/O functions compute it (32-bit shift, runtime.S:49) *)
Definition memory_size (m : Z -> Z) (vars : Z) : Z := (s_pages m vars * 65536) mod 2 ^ 32.

(** ** Time *)

(* rt_time: the clock has been read for the guest, or the process exits *)
Definition gives_time (s : cpu) (sp text vars clk : Z) : Prop :=
  exists s1, comes_to (More s) (Outside (v_clock_gettime (mm s) text) s1) /\ rget rdi (rg s1) = clk /\
  (forall sec nsec sg e, clock_returns s1 vars true sec nsec sg e -> 0 <= sec < 2 ^ 33 -> 0 <= nsec < 10 ^ 9 ->
     exists s2, comes_to e (Outside (text + 16) s2) /\
     resumed s s2 sp text vars (guest_time (mm s) text vars clk sec nsec) (sg || Z.odd (s_suspend (mm s) vars)) [(20, 4)] /\
     s_suspend (mm s2) vars = 0) /\
  (forall sec nsec sg e, clock_returns s1 vars false sec nsec sg e ->
     exists s4, comes_to e (AtSyscall s4) /\
     rget rax (rg s4) = SYS_exit_group /\ rget rdi (rg s4) = 9 /\ s_monotonic (mm s4) vars = 2 ^ 64 - 1).

(** ** Signals *)

(* Offsets of the interrupted registers in the context structure that the kernel passes to a handler
   (struct ucontext, x86-64) *)
Definition uc_rbx (uc : Z) : Z := uc + 128.
Definition uc_rsp (uc : Z) : Z := uc + 160.
Definition uc_rip (uc : Z) : Z := uc + 168.
Definition SYS_rt_sigreturn : Z := 15.
Definition SIGSEGV : Z := 11.
(* The kernel has interrupted the program: it has put a frame on the stack below the stack pointer (beyond the
   red zone of 128 bytes), and called the handler, which will return to the restorer.  Handlers run to completion.
   The frame is above the stack's variables: runtime.h reserves the space. *)
Record interrupted (h : cpu) (signum uc vars sp rbx0 rip : Z) : Prop := Interrupted {
  in_pc : pc h = L_signal_handler;
  in_sig : rget rdi (rg h) = signum;
  in_uc : rget rdx (rg h) = uc;
  in_ret : ld 8 (mm h) (rget rsp (rg h)) = cbase h + Z.of_nat L_signal_restorer;
  in_rbx : ld 8 (mm h) (uc_rbx uc) = rbx0;
  in_rsp : ld 8 (mm h) (uc_rsp uc) = sp;
  in_rip : ld 8 (mm h) (uc_rip uc) = rip;
  in_frame : 0 <= vars /\ vars + 64 <= rget rsp (rg h) /\ rget rsp (rg h) + 8 <= uc /\ uc + 304 <= sp - 128 /\ sp + 24 <= 2 ^ 47;
  in_signum : 0 <= signum < 2 ^ 31;
  in_mem : forall a, 0 <= mm h a < 256;
  in_limit : Z.land rbx0 (2 ^ 64 - 1 - suspend_mask) = vars + stack_limit_offset;
  in_code : 0 <= cbase h < 2 ^ 47;
}.

(** ** Start *)

(* At exit_group(code), with memory as given *)
Definition quits (e : event) (code : Z) (m : Z -> Z) : Prop :=
  exists s, comes_to e (AtSyscall s) /\ rget rax (rg s) = SYS_exit_group /\ rget rdi (rg s) = code /\ mm s = m.
(* Execution of the guest program begins: at the init routine, whose address is in the text region; all other
   registers are zero, except for stack pointer, stack limit and text base.  The stack is marked as being in use
   (all bits set). *)
Definition starts (e : event) (routine sp limit vars : Z) (m : Z -> Z) : Prop :=
  exists s, comes_to e (Outside routine s) /\
    rg s = Regs 0 0 0 limit sp 0 0 0 0 0 0 0 0 0 0 (Z.land routine (2 ^ 64 - 128)) /\
    s_unused (mm s) vars = 2 ^ 32 - 1 /\
    forall x, ~ (vars <= x < vars + 4) -> ~ (sp - 8 <= x < sp) -> mm s x = m x.
(* The loader has set up the process and jumped here (loader.c:478-493) *)
Record loaded (s : cpu) (routine sp limit vars : Z) : Prop := Loaded {
  lo_routine : rget r15 (rg s) = routine;
  lo_sp : rget rsp (rg s) = sp;
  lo_limit : rget rbx (rg s) = limit;
  lo_vars : Z.land limit (2 ^ 64 - 1 - suspend_mask) = vars + stack_limit_offset;
  lo_regs : forall r, 0 <= rget r (rg s) < 2 ^ 64;
  lo_mem : forall a, 0 <= mm s a < 256;
  lo_range : 0 <= vars /\ vars + 64 <= sp - 128 /\ sp < 2 ^ 47;
  lo_code : 0 <= cbase s < 2 ^ 47 /\ ~ (cbase s <= routine < cbase s + Z.of_nat (length runtime));
}.

(** ** Results of system calls *)

(* The functions that begin with io_prologue, their system calls and files *)
Inductive iofun := Read | Write | Debug.
Definition io_pc (f : iofun) : nat := match f with Read => L_rt_read | Write => L_rt_write | Debug => L_rt_debug end.
Definition io_nr (f : iofun) : Z := match f with Read => SYS_read | _ => SYS_write end.
Definition io_fd (f : iofun) : Z := match f with Read => 0 | Write => 1 | Debug => 2 end.

(* After the system call: to the resume routine with a result, or to the exit routine with a status *)
Definition after_io (fn : iofun) (r : Z) : Z + Z :=
  match fn with
  | Read => if 0 <=? r then inl r else if (r =? -11) || (r =? -4) then inl 0 else inr 4
  | Write => if 0 <? r then inl r else if (r =? -11) || (r =? -4) then inl 0 else inr 5
  | Debug => inr 6
  end.

(* What is the same after the system call: everything but a part of guest memory *)
Definition kernel_stored (m m' : Z -> Z) (a n : Z) : Prop :=
  (forall x, 0 <= m' x < 256) /\ (forall x, ~ (a <= x < a + n) -> m' x = m x).

(* Back at the beginning of rt_debug, with the buffer [A, A+N) left to print *)
Definition debug_again (s' : cpu) (m : Z -> Z) (sp text vars A N : Z) : Prop :=
  exists s2, comes_to (More s') (More s2) /\ pc s2 = L_rt_debug /\ imported s2 sp text vars /\ memory_apart s2 sp text vars /\
    arg1 (mm s2) sp = A /\ arg2 (mm s2) sp = N /\ rget rbx (rg s2) = rget rbx (rg s') /\
    (forall x, ~ (sp + 8 <= x < sp + 20) -> mm s2 x = m x).

(* After ppoll with two entries: POLLHUP or POLLRDHUP of input (0x2010): no events; other conditions than POLLIN of
   input and POLLOUT of output: exit; the conditions otherwise.  Interruption: no events. *)
Definition after_poll (r r0 r1 : Z) : Z + Z :=
  if 0 <? r
  then if negb (Z.land r0 8208 =? 0) then inl 0
       else if negb (Z.land r0 4294967294 =? 0) then inr 10
       else if negb (Z.land r1 4294967291 =? 0) then inr 10
       else inl (Z.lor r0 r1)
  else if (r =? -11) || (r =? -4) then inl 0 else inr 10.

(* The kernel has stored the conditions of both files *)
Definition kernel_revents (m m' : Z -> Z) (fds r0 r1 : Z) : Prop :=
  (forall x, 0 <= m' x < 256) /\ ld 2 m' (fds + 6) = r0 /\ ld 2 m' (fds + 14) = r1 /\
  (forall x, ~ (fds + 6 <= x < fds + 8) -> ~ (fds + 14 <= x < fds + 16) -> m' x = m x).

(* After the seccomp call: exit with status 35 if it failed; the guest program starts otherwise, unless it's been
   told to suspend *)
Definition init_result (s1 : cpu) (routine sp limit vars : Z) : Prop :=
  forall r c k, -4095 <= r <= 0 -> 0 <= c < 2 ^ 64 -> 0 <= k < 2 ^ 64 ->
    let s' := sysret s1 r c k (mm s1) in
    if r =? 0 then (if Z.odd limit then quits (More s') 102 (mm s1) else starts (More s') routine sp limit vars (mm s1))
    else quits (More s') 35 (mm s1).
