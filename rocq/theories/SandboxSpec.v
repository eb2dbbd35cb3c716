(* SandboxSpec.v: vocabulary for stating the sandbox properties. *)
From Verif Require Export Sandbox.

(* Page sizes of Linux: powers of two from 4 to 64 kilobytes. *)
Definition page_size (P : Z) : Prop := exists k, 12 <= k <= 16 /\ P = 2 ^ k.

(* What Start may be given: the sizes are those of uint32 fields, the globals take whole
   pages and the memory in use whole WebAssembly pages within its limit (image/instance.go:208,210), and a
   text address, if fixed, is one that was chosen at random earlier. *)
Definition valid_program (P : Z) (p : program) : Prop :=
  p_page p = P /\
  0 <= p_text_size p < 2 ^ 32 /\ 0 <= p_stack_size p < 2 ^ 32 /\ 0 <= p_stack_usage p <= p_stack_size p /\
  0 <= p_globals_size p < 2 ^ 32 /\ (P | p_globals_size p) /\ (65536 | p_memory_size p) /\
  0 <= p_memory_size p <= p_max_memory p /\ p_max_memory p < 2 ^ 32 /\
  0 <= p_start_addr p < 2 ^ 32 /\ 0 <= p_entry_addr p < 2 ^ 32 /\ 0 <= p_monotonic p < 2 ^ 64 /\
  (p_text_addr p = 0 \/ exists b, is_bytes b /\ RandAddr P MinTextAddr MaxTextAddr b = Ok (p_text_addr p)).

(* The bytes a mapping occupies: the kernel rounds its size up to whole pages. *)
Definition occupies (P : Z) (m : mapping) (a : Z) : Prop :=
  m_addr m <= a < m_addr m + (m_size m + P - 1) / P * P.
(* The user half of the address space, without the zero page. *)
Definition user_address (a : Z) : Prop := 65536 <= a < 2 ^ 47.

(* The effect of a successful mprotect(addr, len, prot): the pages it changes. *)
Definition mprotect_changes (P addr ln a : Z) : Prop := addr <= a < addr + (ln + P - 1) / P * P.

(* The calls that the runtime code makes (runtime.S): I/O and polling, closing, exit, return from a signal
   handler. *)
Definition plain_call (s : numbers) (nr : Z) : Prop :=
  In nr [n_read s; n_write s; n_ppoll s; n_rt_sigreturn s; n_close s; n_exit_group s].
(* Growing memory: at or above the heap addresses, less than 4 GB, to readable and writable. *)
Definition grow_call (s : numbers) (c : syscall) : Prop :=
  s_nr c = n_grow s /\
  MinHeapAddr <= nth 0 (s_args c) 0 /\ nth 1 (s_args c) 0 < 2 ^ 32 /\ nth 2 (s_args c) 0 mod 2 ^ 32 = PROT_RW.
Definition valid_syscall (c : syscall) : Prop :=
  0 <= s_nr c < 2 ^ 31 /\ 0 <= s_arch c < 2 ^ 32 /\ length (s_args c) = 6%nat /\
  Forall (fun a => 0 <= a < 2 ^ 64) (s_args c).
