(* Vector.v: the import vector and the stack variables as the loader writes them, and the slots that the guest
   library's imports are bound to. *)
From Verif Require Export Sandbox RuntimeSpec RuntimeKernel.
From Verif Require Import Wasm GuestLib.
Local Open Scope Z_scope.

(* loader.c:93-96 runtime_func_addr; the code is copied to the start of the page below the text (:344-353).  Addresses
   within the code are instruction numbers, as in Asm.v. *)
Definition runtime_base (i : info) : Z := i_text i - i_page i.
Definition func_addr (i : info) (label : nat) : Z := runtime_base i + Z.of_nat label.

(* What the loader writes, before it is entered: address relative to the end of the vector, value *)
Definition write_words (n : nat) (at_ : Z) (l : list (Z * Z)) (m : Z -> Z) : Z -> Z :=
  fold_left (fun m w => sto n m (at_ + fst w) (snd w)) l m.

(* loader.c:439-460; clock is the address of the C function, base the clock's reading at start (:333-340), random as two
   words (:166) *)
Definition vector_words (i : info) (debug : bool) (clock base : Z) : list (Z * Z) :=
  [(-18 * 8, func_addr i L_rt_nop);
   (-17 * 8, func_addr i L_rt_stop);
   (-16 * 8, func_addr i (if debug then L_rt_debug else L_rt_nop));
   (-15 * 8, func_addr i L_rt_write);
   (-14 * 8, func_addr i L_rt_read);
   (-13 * 8, func_addr i L_rt_poll);
   (-12 * 8, func_addr i L_rt_time);
   (-11 * 8, clock);
   (-10 * 8, base);
   (-9 * 8, i_time_mask i);
   (-8 * 8, unle (firstn 8 (i_random i)));
   (-7 * 8, unle (skipn 8 (i_random i)));
   (-6 * 8, func_addr i L_rt_random);
   (-5 * 8, i_grow_memory i / 65536);
   (-4 * 8, memory_addr i);
   (-3 * 8, func_addr i L_current_memory);
   (-2 * 8, func_addr i L_grow_memory);
   (-1 * 8, func_addr i L_trap_handler)].
(* loader.c:378-385: stack_vars' fields; (text_addr and magic, which only instance.go reads, are C107's) *)
Definition load_vars (i : info) (m : Z -> Z) : Z -> Z :=
  let v := i_stack i in
  let m := sto 4 m v 0 in
  let m := sto 4 m (v + 4) (i_init_memory i / 65536) in
  let m := sto 8 m (v + 8) (i_monotonic i) in
  let m := sto 4 m (v + 16) 16 in
  sto 4 m (v + 20) 0.
Definition loaded (i : info) (debug : bool) (clock base : Z) (m : Z -> Z) : Z -> Z :=
  write_words 8 (i_text i) (vector_words i debug clock base) (load_vars i m).

(* abi.go:25-36 rtFunctions: the library's imports by slot.  Code is generated to call the address in the slot (wag). *)
Definition rt_slot (f : rtf) : Z :=
  match f with
  | RtStop => -17 | RtDebug => -16 | RtWrite => -15 | RtRead => -14 | RtPoll => -13 | RtTime => -12 | RtRandom => -6 | RtNop => -5
  end.
Definition called (m : Z -> Z) (text : Z) (f : rtf) : Z := ld 8 m (text + 8 * rt_slot f).

(* Every function of library.wat *)
Definition library_functions : list func :=
  [lib_args_get; lib_args_sizes_get; lib_clock_res_get; lib_clock_time_get; lib_environ_get; lib_environ_sizes_get;
   lib_io; lib_fd; lib_fd_close; lib_fd_fdstat_get; lib_fd_fdstat_set_flags; lib_fd_fdstat_set_rights;
   lib_fd_filestat_get; lib_fd_read; lib_fd_renumber; lib_fd_stub_i32; lib_fd_stub_i32i32; lib_fd_stub_i32i64;
   lib_fd_stub_i32i32i32; lib_fd_stub_i32i64i64; lib_fd_stub_i32i64i32i32; lib_fd_stub_i32i64i64i32; lib_fd_stub_i32i32i32i64i32; lib_fd_write;
   lib_path_stub_i32i32i32; lib_path_stub_i32i32i32i32i32; lib_path_stub_i32i32i32i32i32i32; lib_path_stub_i32i32i32i32i32i32i32; lib_path_stub_i32i32i32i32i64i64i32; lib_path_stub_i32i32i32i32i32i64i64i32i32;
   lib_poll_oneoff; lib_proc_exit; lib_proc_raise; lib_random_get; lib_sched_yield; lib_sock_recv;
   lib_sock_send; lib_sock_shutdown].

(* Does code contain a call of nop? *)
Fixpoint calls_nop (i : ins) : bool :=
  match i with
  | Const _ | Get _ | Br _ => false
  | Set_ _ a | Eqz a | Wrap a | Load _ _ a | BrIf _ a | Return a | Drop a => calls_nop a
  | Bin _ a b | Store _ _ a b => calls_nop a || calls_nop b
  | Call0 f => match f with RtNop => true | _ => false end
  | Call1 f a => match f with RtNop => true | _ => calls_nop a end
  | Call2 f a b => match f with RtNop => true | _ => calls_nop a || calls_nop b end
  | Block l | Loop l => existsb calls_nop l
  | If c t e => calls_nop c || existsb calls_nop t || existsb calls_nop e
  end.
