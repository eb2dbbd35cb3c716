(* RuntimeSched.v: executions of the runtime functions when signals, system call results and the C function's
   behaviour are arbitrary. *)
From Verif Require Export RuntimeSpec.
Local Open Scope Z_scope.

(* Both suspend bits are set in a value of the stack limit register: the guest program will stop at its next call
   or loop iteration *)
Definition told_to_suspend (limit : Z) : Prop := Z.land limit suspend_mask = suspend_mask.
(* The second bit of the variable: the register isn't to be changed by the handler *)
Definition protected (susp : Z) : bool := Z.odd (susp / 2).

(* Effect of a suspend signal at an instruction boundary: the handler (runtime.S:166-178) may set the bits
   of the stack limit register, and sets a bit of the variable.  The frames of handler and kernel have been
   below the stack pointer. *)
Definition signalled (vars : Z) (s s' : cpu) : Prop :=
  exists m,
    s' = Cpu (rset rbx (limit_after (rget rbx (rg s)) (negb (protected (s_suspend (mm s) vars)))) (rg s)) (zf s) (lt s) (pc s) (cbase s) m /\
    (forall a, 0 <= m a < 256) /\
    s_suspend m vars = Z.lor (s_suspend (mm s) vars) 1 /\
    (forall a, ~ (vars + 64 <= a < rget rsp (rg s) - 128) -> ~ (vars + 20 <= a < vars + 24) -> m a = mm s a).

(* One move of the process: its events, and whether it has got a suspend signal.  The import function was called
   with stack pointer sp; when the resume routine gets control with a lower one, it's been called by the runtime. *)
Inductive moves (sp text vars : Z) : event -> bool -> event -> bool -> Prop :=
| mv_step s g : moves sp text vars (More s) g (step runtime s) g
| mv_signal s s' g : signalled vars s s' -> moves sp text vars (More s) g (More s') true
| mv_kernel s g r c k m :
    rget rax (rg s) <> SYS_exit_group ->
    -4095 <= r < 2 ^ 32 -> 0 <= c < 2 ^ 64 -> 0 <= k < 2 ^ 64 -> (forall a, 0 <= m a < 256) ->
    (forall a, vars <= a < vars + 64 \/ text - 88 <= a < text -> m a = mm s a) ->
    moves sp text vars (AtSyscall s) g (More (sysret s r c k m)) g
| mv_clock s g ok sec nsec sg e :
    clock_returns s vars ok sec nsec sg e -> moves sp text vars (Outside (v_clock_gettime (mm s) text) s) g e (g || sg)
| mv_resume s g e :
    rget rsp (rg s) < sp -> resume_returns s e -> (forall s', e = More s' -> forall r, 0 <= rget r (rg s') < 2 ^ 64) ->
    moves sp text vars (Outside (text + 16) s) g e g.
Inductive reaches (sp text vars : Z) : event -> bool -> event -> bool -> Prop :=
| rc_here e g : reaches sp text vars e g e g
| rc_move e1 g1 e2 g2 e3 g3 : moves sp text vars e1 g1 e2 g2 -> reaches sp text vars e2 g2 e3 g3 -> reaches sp text vars e1 g1 e3 g3.

(* The places where the guest program or the loader's signal setup enters the code *)
Definition entries : list nat :=
  [L_Lsigsegv_exit; L_trap_handler; L_current_memory; L_grow_memory; L_rt_nop; L_rt_poll; L_rt_read; L_rt_write;
   L_rt_time; L_rt_random; L_rt_stop; L_rt_debug].
(* What the sandbox permits: runtime/loader/seccomp.S *)
Definition permitted : list Z := [SYS_read; SYS_write; SYS_mprotect; SYS_exit_group; SYS_ppoll].

(** ** Delivery of a signal *)

(* The kernel interrupts the program at an instruction boundary (state s): it stores the registers in a frame
   below the red zone, and calls the handler *)
Record delivered (s h : cpu) (signum uc vars : Z) : Prop := Delivered {
  de_frame : interrupted h signum uc vars (rget rsp (rg s)) (rget rbx (rg s)) (cbase s + Z.of_nat (pc s));
  de_code : cbase h = cbase s;
  de_mem : forall a, ~ (vars + 64 <= a < rget rsp (rg s) - 128) -> mm h a = mm s a;
}.
(* rt_sigreturn (state h2): the registers come from the frame.  The runtime's handlers don't touch the other
   registers in the frame. *)
Definition sigreturned (s h2 : cpu) (uc : Z) : event :=
  goto (length runtime) (ld 8 (mm h2) (uc_rip uc))
    (Cpu (rset rbx (ld 8 (mm h2) (uc_rbx uc)) (rset rsp (ld 8 (mm h2) (uc_rsp uc)) (rg s))) (zf s) (lt s) (pc s) (cbase s) (mm h2)).

(** ** Life of a program's clock *)

(* One process: memory when it has been loaded, the time resolution of its policy, the reading of the host's clock
   in the loader (loader.c:333-340), the readings by the guest, and the one at exit *)
Record incarnation := Incarnation {
  in_memory : Z -> Z;
  in_text : Z;
  in_vars : Z;
  in_mask : Z;
  in_start : Z * Z;
  in_reads : list (Z * Z);
  in_exit : Z * Z;
}.
Definition earlier (a b : Z * Z) : Prop := fst a < fst b \/ (fst a = fst b /\ snd a <= snd b).
Definition reading (r : Z * Z) : Prop := 0 <= fst r < 2 ^ 33 /\ 0 <= snd r < 10 ^ 9.
Fixpoint in_order (l : list (Z * Z)) : Prop :=
  match l with a :: (b :: _) as t => earlier a b /\ in_order t | _ => True end.
(* What the guest sees, and what will be stored at exit *)
Definition sees (i : incarnation) (r : Z * Z) : Z := guest_time (in_memory i) (in_text i) (in_vars i) 6 (fst r) (snd r).
Definition clocked (i : incarnation) : Prop :=
  let all := in_start i :: in_reads i ++ [in_exit i] in
  Forall reading all /\ in_order all /\
  v_time_mask (in_memory i) (in_text i) = in_mask i /\
  v_time_base (in_memory i) (in_text i) = nanoseconds (fst (in_start i)) (snd (in_start i)) (in_mask i) /\
  (exists k, 0 <= k <= 30 /\ forall t, 0 <= t < 2 ^ 32 -> Z.land t (in_mask i) = t - t mod 2 ^ k) /\
  (* no wrap-around (584 years) *)
  0 <= s_monotonic (in_memory i) (in_vars i) /\ s_monotonic (in_memory i) (in_vars i) + 2 ^ 33 * 10 ^ 9 < 2 ^ 64.
(* The next process, maybe on another host, continues from the stored time *)
Fixpoint chained (l : list incarnation) : Prop :=
  match l with
  | i :: (j :: _) as t => s_monotonic (in_memory j) (in_vars j) = sees i (in_exit i) /\ chained t
  | _ => True
  end.
Definition seen (l : list incarnation) : list Z := flat_map (fun i => map (sees i) (in_reads i ++ [in_exit i])) l.
