(* Asm.v: the x86-64 instructions that runtime/loader/x86_64/runtime.S uses, and their execution.

   Registers and addresses are unsigned integers; memory is a function from addresses to bytes, without
   permissions.  An instruction occupies one code address (only their distinctness matters: no instruction
   of the file depends on code layout).  A flag that an instruction leaves undefined makes a following
   conditional jump stuck.  Flags other than ZF and SF<>OF are left out (no instruction reads them). *)
From Verif Require Export Base.
Local Open Scope Z_scope.

(** ** Syntax *)

Inductive reg := rax | rcx | rdx | rbx | rsp | rbp | rsi | rdi | r8 | r9 | r10 | r11 | r12 | r13 | r14 | r15.
(* Operands: register, immediate, memory: offset(base, index) *)
Inductive opd := R (r : reg) | I (z : Z) | M (b : reg) (x : option reg) (off : Z).
Inductive alu := Add | Sub | And | Or | Xor.
Inductive cond := CE | CNE | CL | CG | CGE.
(* Operand order is that of the file (AT&T): source, destination.  The first number is the operand size. *)
Inductive ins :=
| Mov (w : Z) (src dst : opd)
| Alu (o : alu) (w : Z) (src dst : opd)
| Cmp (w : Z) (src dst : opd)
| Test (w : Z) (src dst : opd)
| Lea (src : opd) (r : reg)
| LeaCode (l : nat) (r : reg)
| Jmp (l : nat)
| Jcc (c : cond) (l : nat)
| Call (l : nat)
| Ret
| Push (r : reg)
| Pop (r : reg)
| Xchg (w : Z) (r : reg) (m : opd)
| Cmove (w : Z) (src dst : reg)
| Mul (r : reg)
| Dec (w : Z) (r : reg)
| Shl (w : Z) (n : Z) (r : reg)
| Shr (w : Z) (n : Z) (r : reg)
| Syscall
| Int3
| Pause.

(** ** State *)

Record regs := Regs {
  g_rax : Z; g_rcx : Z; g_rdx : Z; g_rbx : Z; g_rsp : Z; g_rbp : Z; g_rsi : Z; g_rdi : Z;
  g_r8 : Z; g_r9 : Z; g_r10 : Z; g_r11 : Z; g_r12 : Z; g_r13 : Z; g_r14 : Z; g_r15 : Z }.
Definition rget (r : reg) (g : regs) : Z :=
  match r with
  | rax => g_rax g | rcx => g_rcx g | rdx => g_rdx g | rbx => g_rbx g | rsp => g_rsp g | rbp => g_rbp g
  | rsi => g_rsi g | rdi => g_rdi g | r8 => g_r8 g | r9 => g_r9 g | r10 => g_r10 g | r11 => g_r11 g
  | r12 => g_r12 g | r13 => g_r13 g | r14 => g_r14 g | r15 => g_r15 g
  end.
Definition rset (r : reg) (v : Z) (g : regs) : regs :=
  match g with
  | Regs a c d b s p i j e f h k l m n o =>
      match r with
      | rax => Regs v c d b s p i j e f h k l m n o | rcx => Regs a v d b s p i j e f h k l m n o
      | rdx => Regs a c v b s p i j e f h k l m n o | rbx => Regs a c d v s p i j e f h k l m n o
      | rsp => Regs a c d b v p i j e f h k l m n o | rbp => Regs a c d b s v i j e f h k l m n o
      | rsi => Regs a c d b s p v j e f h k l m n o | rdi => Regs a c d b s p i v e f h k l m n o
      | r8 => Regs a c d b s p i j v f h k l m n o | r9 => Regs a c d b s p i j e v h k l m n o
      | r10 => Regs a c d b s p i j e f v k l m n o | r11 => Regs a c d b s p i j e f h v l m n o
      | r12 => Regs a c d b s p i j e f h k v m n o | r13 => Regs a c d b s p i j e f h k l v n o
      | r14 => Regs a c d b s p i j e f h k l m v o | r15 => Regs a c d b s p i j e f h k l m n v
      end
  end.

Record cpu := Cpu {
  rg : regs;
  zf : option bool;      (* zero *)
  lt : option bool;      (* signed less: SF<>OF *)
  pc : nat;              (* index of the instruction *)
  cbase : Z;             (* where the code is *)
  mm : Z -> Z;           (* memory bytes *)
}.
Definition set_rg (s : cpu) g := Cpu g (zf s) (lt s) (pc s) (cbase s) (mm s).
Definition set_flags (s : cpu) z l := Cpu (rg s) z l (pc s) (cbase s) (mm s).
Definition set_pc (s : cpu) p := Cpu (rg s) (zf s) (lt s) p (cbase s) (mm s).
Definition set_mm (s : cpu) m := Cpu (rg s) (zf s) (lt s) (pc s) (cbase s) m.

Definition u64 (x : Z) : Z := x mod 2 ^ 64.
Definition high64 (x : Z) : Z := x / 2 ^ 64.
(* Number of values of an operand size in bytes *)
Definition card (w : Z) : Z := 2 ^ (8 * w).
(* Signed value of an operand *)
Definition sgn (w x : Z) : Z := if x <? card w / 2 then x else x - card w.

(* Little-endian load and store of n bytes *)
Fixpoint ld (n : nat) (m : Z -> Z) (a : Z) : Z :=
  match n with O => 0 | S k => m a + 256 * ld k m (a + 1) end.
Definition sto (n : nat) (m : Z -> Z) (a v : Z) : Z -> Z :=
  fun x => if (a <=? x) && (x <? a + Z.of_nat n) then (v / 2 ^ (8 * (x - a))) mod 256 else m x.

(** ** Operands *)

Definition ea (b : reg) (x : option reg) (off : Z) (s : cpu) : Z :=
  u64 (rget b (rg s) + match x with Some i => rget i (rg s) | None => 0 end + off).
Definition val (w : Z) (o : opd) (s : cpu) : Z :=
  match o with
  | R r => rget r (rg s) mod card w
  | I z => z mod card w
  | M b x off => ld (Z.to_nat w) (mm s) (ea b x off s)
  end.
Definition wide (w : Z) : bool := match w with 4 | 8 => true | _ => false end.
(* A 32-bit result clears the register's upper half; a shorter one leaves the rest as it is *)
Definition put (w : Z) (o : opd) (v : Z) (s : cpu) : cpu :=
  match o with
  | R r =>
      set_rg s (rset r (if wide w then v
                        else rget r (rg s) - rget r (rg s) mod card w + v) (rg s))
  | I _ => s
  | M b x off => set_mm s (sto (Z.to_nat w) (mm s) (ea b x off s) v)
  end.

(** ** Instructions *)

(* Value and signed-less flag of destination op source *)
Definition alu_val (o : alu) (w d s : Z) : Z :=
  match o with
  | Add => (d + s) mod card w
  | Sub => (d - s) mod card w
  | And => Z.land d s
  | Or => Z.lor d s
  | Xor => Z.lxor d s
  end.
Definition alu_lt (o : alu) (w d s : Z) : bool :=
  match o with
  | Add => sgn w d + sgn w s <? 0
  | Sub => sgn w d <? sgn w s
  | And => sgn w (Z.land d s) <? 0
  | Or => sgn w (Z.lor d s) <? 0
  | Xor => sgn w (Z.lxor d s) <? 0
  end.
Definition cond_holds (c : cond) (z l : option bool) : option bool :=
  match c with
  | CE => z
  | CNE => match z with Some b => Some (negb b) | None => None end
  | CL => l
  | CGE => match l with Some b => Some (negb b) | None => None end
  | CG => match z, l with Some z, Some l => Some (if z then false else negb l) | _, _ => None end
  end.

Inductive event :=
| More (s : cpu)                 (* goes on *)
| AtSyscall (s : cpu)            (* at a system call; pc is after the instruction *)
| Outside (a : Z) (s : cpu)      (* control has left the code for address a *)
| Breakpoint (s : cpu)           (* int3 *)
| Stuck.

Definition next (s : cpu) : event := More (set_pc s (S (pc s))).
Definition jump (l : nat) (s : cpu) : event := More (set_pc s l).
(* Control transfer to an address *)
Definition goto (len : nat) (a : Z) (s : cpu) : event :=
  if (cbase s <=? a) && (a <? cbase s + Z.of_nat len) then More (set_pc s (Z.to_nat (a - cbase s))) else Outside a s.
Definition push (v : Z) (s : cpu) : cpu :=
  let sp := u64 (rget rsp (rg s) - 8) in
  set_mm (set_rg s (rset rsp sp (rg s))) (sto 8 (mm s) sp v).
Definition pop (s : cpu) : Z * cpu :=
  let sp := rget rsp (rg s) in
  (ld 8 (mm s) sp, set_rg s (rset rsp (u64 (sp + 8)) (rg s))).

Definition exec (len : nat) (i : ins) (s : cpu) : event :=
  match i with
  | Mov w src dst => next (put w dst (val w src s) s)
  | Alu o w src dst =>
      let d := val w dst s in
      let v := val w src s in
      let r := alu_val o w d v in
      next (set_flags (put w dst r s) (Some (r =? 0)) (Some (alu_lt o w d v)))
  | Cmp w src dst =>
      let d := val w dst s in
      let v := val w src s in
      next (set_flags s (Some (d =? v)) (Some (alu_lt Sub w d v)))
  | Test w src dst =>
      let r := Z.land (val w dst s) (val w src s) in
      next (set_flags s (Some (r =? 0)) (Some (sgn w r <? 0)))
  | Lea (M b x off) r => next (set_rg s (rset r (ea b x off s) (rg s)))
  | Lea _ _ => Stuck
  | LeaCode l r => next (set_rg s (rset r (u64 (cbase s + Z.of_nat l)) (rg s)))
  | Jmp l => jump l s
  | Jcc c l =>
      match cond_holds c (zf s) (lt s) with
      | Some true => jump l s
      | Some false => next s
      | None => Stuck
      end
  | Call l => jump l (push (u64 (cbase s + Z.of_nat (S (pc s)))) s)
  | Ret => let (a, s) := pop s in goto len a s
  | Push r => next (push (rget r (rg s)) s)
  | Pop r => let (v, s) := pop s in next (set_rg s (rset r v (rg s)))
  | Xchg w r m => next (put w (R r) (val w m s) (put w m (val w (R r) s) s))
  | Cmove w src dst =>
      match zf s with
      | Some b => next (put w (R dst) (val w (R (if b then src else dst)) s) s)
      | None => Stuck
      end
  | Mul r =>
      let p := rget rax (rg s) * rget r (rg s) in
      next (set_flags (set_rg s (rset rdx (high64 p) (rset rax (u64 p) (rg s)))) None None)
  | Dec w r =>
      let d := val w (R r) s in
      let v := (d - 1) mod card w in
      next (set_flags (put w (R r) v s) (Some (v =? 0)) (Some (sgn w d <? 1)))
  | Shl w n r =>
      let v := Z.shiftl (val w (R r) s) n mod card w in
      next (set_flags (put w (R r) v s) (Some (v =? 0)) None)
  | Shr w n r =>
      let v := Z.shiftr (val w (R r) s) n in
      next (set_flags (put w (R r) v s) (Some (v =? 0)) None)
  | Syscall => AtSyscall (set_pc s (S (pc s)))
  | Int3 => Breakpoint s
  | Pause => next s
  end.

Definition step (code : list ins) (s : cpu) : event :=
  match nth_error code (pc s) with
  | Some i => exec (length code) i s
  | None => Stuck
  end.
(* At most n instructions *)
Fixpoint run (code : list ins) (n : nat) (s : cpu) : event :=
  match n with
  | O => More s
  | S k => match step code s with More s => run code k s | e => e end
  end.

(** ** Environment *)

(* Return from a system call: the result is in rax; rcx, r11 and flags get arbitrary values; the kernel may
   have stored to memory *)
Definition sysret (s : cpu) (result c k : Z) (m : Z -> Z) : cpu :=
  Cpu (rset rax (u64 result) (rset rcx c (rset r11 k (rg s)))) None None (pc s) (cbase s) m.
(* Code outside returns to the address on top of the stack with a result and arbitrary values in the other
   registers that the System V ABI doesn't preserve *)
Definition c_return (code : list ins) (s : cpu) (result : Z) (c d i j e f h k : Z) (m : Z -> Z) : event :=
  let g := rset rax (u64 result) (rset rcx c (rset rdx d (rset rsi i (rset rdi j (rset r8 e (rset r9 f (rset r10 h (rset r11 k (rg s))))))))) in
  let s := Cpu g None None (pc s) (cbase s) m in
  let (a, s) := pop s in goto (length code) a s.
