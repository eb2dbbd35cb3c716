(* Sandbox.v: the address space and the system call filter of a program's process.
   runtime/process.go:170-221 (Start), :413-448 (getRand), internal/executable/addr.go,
   runtime/loader/loader.c:166-186 (struct image_info), :318-471 (main),
   runtime/loader/seccomp.S and the constants of runtime/include/runtime.h.

   Left out: Android (except for its filter), the vDSO lookup, resource limits, what the mappings contain. *)
From Verif Require Export Base.

(** ** Addresses *)

(* addr.go:12-19 *)
Definition MinTextAddr : Z := 0x000400000000.
Definition MaxTextAddr : Z := 0x2aa700000000.
Definition MinHeapAddr : Z := 0x2aa900000000.
Definition MaxHeapAddr : Z := 0x554b00000000.
Definition MinStackAddr : Z := 0x554d00000000.
Definition MaxStackAddr : Z := 0x7ff000000000.

(* addr.go:23-28 RandAddr; pageSize is os.Getpagesize().  The slice must have 4 bytes (binary.Uint32 panics). *)
Definition RandAddr (pageSize minAddr maxAddr : Z) (b : bytes) : res Z :=
  let minPage := minAddr / pageSize in
  let maxPage := maxAddr / pageSize in
  do r <- get_le 0 4 b;
  Ok ((minPage + r mod (maxPage - minPage)) * pageSize).

(* process.go:413-448 getRand; b is what rand.Read returned.  Result: text, heap and stack address and the
   16 bytes of random data (zeros if the program does not need them). *)
Definition rand_len (fixedTextAddr : Z) (needData : bool) : nat :=
  (8 + (if (fixedTextAddr =? 0)%Z then 4 else 0) + (if needData then 16 else 0))%nat.
Definition getRand (pageSize fixedTextAddr : Z) (needData : bool) (b : bytes) : res (Z * Z * Z * bytes) :=
  do heapAddr <- RandAddr pageSize MinHeapAddr MaxHeapAddr b;
  let b := skipn 4 b in
  do stackAddr <- RandAddr pageSize MinStackAddr MaxStackAddr b;
  let b := skipn 4 b in
  do '(textAddr, b) <-
    (if fixedTextAddr =? 0 then
       do a <- RandAddr pageSize MinTextAddr MaxTextAddr b; Ok (a, skipn 4 b)
     else Ok (fixedTextAddr, b));
  Ok (textAddr, heapAddr, stackAddr,
      if needData then firstn 16 b else repeat 0 16).

(** ** Image info *)

(* process.go:32-51 imageInfo (the parts that are constant are left out of the record) *)
Record info := Info {
  i_page : Z;      (* PageSize *)
  i_text : Z;      (* TextAddr *)
  i_stack : Z;     (* StackAddr *)
  i_heap : Z;      (* HeapAddr *)
  i_random : bytes;
  i_text_size : Z;
  i_stack_size : Z;
  i_stack_unused : Z;
  i_globals_size : Z;
  i_init_memory : Z;
  i_grow_memory : Z;
  i_init_routine : Z;
  i_start : Z;
  i_entry : Z;
  i_time_mask : Z;
  i_monotonic : Z;
}.
(* runtime.h:55-56, runtime.go: magic numbers *)
Definition magic1 : Z := 0x19328f3a.
Definition magic2 : Z := 0x975834d75125276c.

(* process.go:206-210: binary.Write of the struct, little-endian, in declaration order *)
Definition info_bytes (i : info) : bytes :=
  le 4 magic1 ++ le 4 (i_page i) ++ le 8 (i_text i) ++ le 8 (i_stack i) ++ le 8 (i_heap i) ++ i_random i ++
  le 4 (i_text_size i) ++ le 4 (i_stack_size i) ++ le 4 (i_stack_unused i) ++ le 4 (i_globals_size i) ++
  le 4 (i_init_memory i) ++ le 4 (i_grow_memory i) ++ le 4 (i_init_routine i) ++ le 4 (i_start i) ++
  le 4 (i_entry i) ++ le 4 (i_time_mask i) ++ le 8 (i_monotonic i) ++ le 8 magic2.

(* loader.c:166-186 struct image_info (packed: field at its byte offset), :217-222 (the size received must be
   that of the struct), :332-337 (magic numbers) *)
Definition receive_info (b : bytes) : res info :=
  if negb (length b =? 104)%nat then Err else
  do m1 <- get_le 0 4 b; do m2 <- get_le 96 8 b;
  if negb (m1 =? magic1) then Err else if negb (m2 =? magic2) then Err else
  do page <- get_le 4 4 b; do text <- get_le 8 8 b; do stack <- get_le 16 8 b; do heap <- get_le 24 8 b;
  do rnd <- slice 32 16 b;
  do ts <- get_le 48 4 b; do ss <- get_le 52 4 b; do su <- get_le 56 4 b; do gs <- get_le 60 4 b;
  do im <- get_le 64 4 b; do gm <- get_le 68 4 b; do ir <- get_le 72 4 b; do sa <- get_le 76 4 b;
  do ea <- get_le 80 4 b; do tm <- get_le 84 4 b; do mt <- get_le 88 8 b;
  Ok (Info page text stack heap rnd ts ss su gs im gm ir sa ea tm mt).

(* process.go:52-70: the methods of ProgramCode and ProgramState that Start calls *)
Record program := Program {
  p_page : Z; p_text_size : Z; p_needs_random : bool;
  p_text_addr : Z;      (* 0 if the state does not depend on it *)
  p_stack_size : Z; p_stack_usage : Z; p_globals_size : Z; p_memory_size : Z; p_max_memory : Z;
  p_start_addr : Z; p_entry_addr : Z; p_monotonic : Z;
}.
(* wag/object/abi (not in /repo; TextAddrResume also at runtime.h:53): the two init routines *)
Definition TextAddrResume : Z := 0x10.
Definition TextAddrEnter : Z := 0x20.

(* process.go:170-204; the random bytes and the time mask (Limits.v) are arguments, the conversions are those to
   the field types *)
Definition start_info (pageSize : Z) (p : program) (timeMask : Z) (rnd : bytes) : res info :=
  do '(textAddr, heapAddr, stackAddr, random) <- getRand pageSize (p_text_addr p) (p_needs_random p) rnd;
  let size := u32 (p_stack_size p) in
  let unused := u32 (p_stack_size p - p_stack_usage p) in
  Ok (Info (u32 (p_page p)) textAddr stackAddr heapAddr random (u32 (p_text_size p)) size unused
        (u32 (p_globals_size p)) (u32 (p_memory_size p)) (u32 (p_max_memory p))
        (if unused =? size then TextAddrEnter else TextAddrResume)
        (p_start_addr p) (p_entry_addr p) timeMask (p_monotonic p)).

(** ** Mappings *)

Inductive prot := RX | RW | NONE.
Record mapping := Mapping { m_addr : Z; m_size : Z; m_prot : prot }.

(* loader.c:349-431: the mappings when the runtime is entered, in the order they are made: runtime code and
   vector (one page, :349-357, protected at :459), text (:370), stack (:382), globals and memory (:416-423:
   everything is mapped inaccessible, and the part in use is made accessible; mappings of size 0 are not made).
   Every address is fixed (MAP_FIXED: an earlier mapping at the place is replaced). *)
Definition loader_mappings (i : info) : list mapping :=
  let heap_size := i_globals_size i + i_grow_memory i in
  let heap_allocated := i_globals_size i + i_init_memory i in
  [Mapping (i_text i - i_page i) (i_page i) RX;
   Mapping (i_text i) (i_text_size i) RX;
   Mapping (i_stack i) (i_stack_size i) RW] ++
  (if heap_size =? 0 then []
   else [Mapping (i_heap i) heap_allocated RW;
         Mapping (i_heap i + heap_allocated) (heap_size - heap_allocated) NONE]).
(* loader.c:433 *)
Definition memory_addr (i : info) : Z := i_heap i + i_globals_size i.

(* loader.c:397-406: the words pushed on the stack and the initial stack pointer *)
Definition loader_stack (i : info) : Z * list Z :=
  let ptr := i_stack i + i_stack_unused i in
  if i_stack_unused i =? i_stack_size i then (ptr - 16, [i_start i; i_entry i]) else (ptr, []).

(** ** System call filter *)

(* struct seccomp_data of linux/seccomp.h: nr, arch, instruction pointer, six arguments *)
Record syscall := Syscall { s_nr : Z; s_arch : Z; s_ip : Z; s_args : list Z }.
(* The 32-bit word at an offset, little-endian: what BPF_LD|BPF_W|BPF_ABS loads *)
Definition data_word (c : syscall) (off : Z) : Z :=
  if off =? 0 then u32 (s_nr c)
  else if off =? 4 then u32 (s_arch c)
  else if off =? 8 then u32 (s_ip c)
  else if off =? 12 then u32 (s_ip c / 2 ^ 32)
  else let a := nth (Z.to_nat ((off - 16) / 8)) (s_args c) 0 in
       if (off - 16) mod 8 =? 0 then u32 a else u32 (a / 2 ^ 32).

(* Classic BPF: the four kinds of instructions that the filter uses *)
Inductive bpf :=
| LD (off : Z)
| JEQ (k : Z) (jt jf : nat)
| JGE (k : Z) (jt jf : nat)
| RET (k : Z).
(* The kernel's interpreter; jumps are forward and relative to the next instruction.  None: fell off the end. *)
Fixpoint bpf_run (n : nat) (prog : list bpf) (acc : Z) (c : syscall) : option Z :=
  match n, prog with
  | S n, LD off :: t => bpf_run n t (data_word c off) c
  | S n, JEQ k jt jf :: t => bpf_run n (skipn (if acc =? k then jt else jf) t) acc c
  | S n, JGE k jt jf :: t => bpf_run n (skipn (if k <=? acc then jt else jf) t) acc c
  | S n, RET k :: _ => Some k
  | _, _ => None
  end.

(* seccomp.S:7-8 *)
Definition KILL : Z := 0x80000000.
Definition ALLOW : Z := 0x7fff0000.
(* asm/unistd.h numbers of the two target architectures *)
Record numbers := Numbers { n_read : Z; n_write : Z; n_ppoll : Z; n_grow : Z; n_rt_sigreturn : Z; n_close : Z; n_exit_group : Z }.
Definition x86_64 : numbers := Numbers 0 1 271 10 15 3 231.          (* grow: mprotect *)
Definition aarch64 : numbers := Numbers 63 64 73 226 139 57 94.      (* runtime.S:17-26 *)
Definition aarch64_android : numbers := Numbers 63 64 73 216 139 57 94.   (* grow: mremap *)
(* runtime.h:36 *)
Definition GATE_MIN_HEAP_HIGH32 : Z := 0x2aa9.
(* PROT_READ|PROT_WRITE *)
Definition PROT_RW : Z := 3.

(* seccomp.S:31-38 *)
Definition filter_head (s : numbers) : list bpf :=
  [LD 0;
   JEQ (n_read s) 12 0;
   JEQ (n_write s) 11 0;
   JEQ (n_ppoll s) 10 0;
   JEQ (n_grow s) 3 0;
   JEQ (n_rt_sigreturn s) 8 0;
   JEQ (n_close s) 7 0;
   JEQ (n_exit_group s) 6 5].
(* seccomp.S:48-53 (not Android) *)
Definition filter_mprotect : list bpf :=
  [LD (16 + 8 * 0 + 4);
   JGE GATE_MIN_HEAP_HIGH32 0 5;
   LD (16 + 8 * 1 + 4);
   JEQ 0 0 3;
   LD (16 + 8 * 2);
   JEQ PROT_RW 0 1].
(* seccomp.S:41-46 (Android) *)
Definition filter_mremap : list bpf :=
  [LD (16 + 8 * 1 + 4);
   JGE 0 0 5;
   LD (16 + 8 * 2 + 4);
   JEQ 0 0 3;
   LD (16 + 8 * 3);
   JEQ 0 0 1].
(* seccomp.S:56-57 *)
Definition filter_tail : list bpf := [RET ALLOW; RET KILL].
Definition seccomp_filter (s : numbers) : list bpf := filter_head s ++ filter_mprotect ++ filter_tail.
Definition android_filter (s : numbers) : list bpf := filter_head s ++ filter_mremap ++ filter_tail.
Definition seccomp (prog : list bpf) (c : syscall) : option Z := bpf_run (length prog) prog 0 c.
