(* RuntimeCheck.v: a checker of the runtime's code.  It follows all paths, and knows some of the registers' and
   stack slots' values symbolically.  (Proof device: RuntimeCheckProofs.v proves it sound; nothing here is part of
   the model of the code.) *)
From Verif Require Export RuntimeSched.
Local Open Scope Z_scope.

(* Symbolic value: anything; number; address relative to stack variables, stack pointer at entry, program text; stack limit; stack limit with
   suspension knowledge; code address; the C function *)
Inductive av := Top | Cst (z : Z) | Vars (k : Z) | Sp (k : Z) | Text (k : Z) | Lim | LimG | Code (l : nat) | Clock.
(* P0: normal; P1: register protected; P2: variable's value has been taken to rax; P3: tested; P4: was set *)
Inductive phase := P0 | P1 | P2 | P3 | P4.
Record ast := Ast { areg : reg -> av; azf : bool; alt : bool; aph : phase; aslots : list (Z * av) }.

Definition reg_n (r : reg) : Z :=
  match r with rax => 0 | rcx => 1 | rdx => 2 | rbx => 3 | rsp => 4 | rbp => 5 | rsi => 6 | rdi => 7 | r8 => 8 | r9 => 9 | r10 => 10
          | r11 => 11 | r12 => 12 | r13 => 13 | r14 => 14 | r15 => 15 end.
Definition reg_eqb (a b : reg) : bool := reg_n a =? reg_n b.
Definition all_regs : list reg := [rax; rcx; rdx; rbx; rsp; rbp; rsi; rdi; r8; r9; r10; r11; r12; r13; r14; r15].
Definition special (r : reg) : bool := match r with rbx | rsp | r15 => true | _ => false end.
Definition plain (p : phase) : bool := match p with P0 | P1 | P4 => true | _ => false end.

Definition aset (r : reg) (v : av) (f : reg -> av) : reg -> av := fun x => if reg_eqb x r then v else f x.
Definition put_reg (r : reg) (v : av) (A : ast) : ast := Ast (aset r v (areg A)) (azf A) (alt A) (aph A) (aslots A).
Definition put_flags (z l : bool) (A : ast) : ast := Ast (areg A) z l (aph A) (aslots A).
Definition put_phase (p : phase) (A : ast) : ast := Ast (areg A) (azf A) (alt A) p (aslots A).
Definition put_slots (s : list (Z * av)) (A : ast) : ast := Ast (areg A) (azf A) (alt A) (aph A) s.

Definition slot (k : Z) (l : list (Z * av)) : av := match find (fun kv => fst kv =? k) l with Some (_, v) => v | None => Top end.
(* Slots not overlapping [a, b) *)
Definition outside (a b : Z) (l : list (Z * av)) : list (Z * av) := filter (fun kv => (fst kv + 8 <=? a) || (b <=? fst kv)) l.
Definition weak (v : av) : av := match v with LimG => Lim | _ => v end.
Definition weak_slots (l : list (Z * av)) : list (Z * av) := map (fun kv => (fst kv, weak (snd kv))) l.

(* Value of an 8-byte or 4-byte operand *)
Definition aval (w : Z) (o : opd) (A : ast) : av :=
  match o with
  | R r => if w =? 8 then weak (areg A r) else match areg A r with Cst z => Cst (z mod 2 ^ 32) | _ => Top end
  | I z => Cst (z mod card w)
  | M b None off =>
      if w =? 8 then
        match areg A b with
        | Text k => if k + off =? -88 then Clock else Top
        | _ => Top
        end
      else Top
  | M _ _ _ => Top
  end.
Definition size_ok (w : Z) : bool := (w =? 1) || (w =? 2) || (w =? 4) || (w =? 8).
(* Store of w bytes *)
Definition astore (w : Z) (b : reg) (off : Z) (v : av) (A : ast) : option ast :=
  match areg A b with
  | Sp k => if (-64 <=? k + off) && (k + off + w <=? 24)
            then let l := outside (k + off) (k + off + w) (aslots A) in
                 Some (put_slots (if w =? 8 then (k + off, v) :: l else l) A)
            else None
  | Vars k => if (0 <=? k + off) && (k + off + w <=? 20) then Some A else None
  | _ => None
  end.
Definition aalu (o : alu) (w : Z) (src dst : opd) (A : ast) : av :=
  match o, src, dst with
  | Xor, R a, R b => if reg_eqb a b then Cst 0 else Top
  | And, R a, R b => match areg A a, areg A b with
                     | Cst z, Lim => if (z =? 2 ^ 64 - 1 - suspend_mask) && (w =? 8) then Vars stack_limit_offset else Top
                     | _, _ => Top
                     end
  | Sub, I z, R b => match areg A b with
                     | Vars k => if (w =? 8) && (0 <=? k - z) && (k - z <=? 9984) && (0 <=? z) && (z <? 65536) then Vars (k - z) else Top
                     | _ => Top end
  | _, _, _ => Top
  end.

(* What follows an instruction: other instructions; a system call, with what follows it if it returns; leaving the code,
   for the C function or the resume routine, with what follows if it returns here *)
Inductive aout :=
| Nexts (l : list (nat * ast))
| Sysc (A : ast) (next : option ast)
| Leave (clock : bool) (A : ast) (next : option (nat * ast)).

Definition after_sys (A : ast) : ast :=
  Ast (aset rax Top (aset rcx Top (aset r11 Top (areg A)))) false false (aph A) [].
Definition after_clock (k j : Z) (A : ast) : ast :=
  Ast (fun r => match r with rbx | rbp | r12 | r13 | r14 | r15 => areg A r | rsp => Sp (k + 8) | _ => Top end)
      false false (aph A) (outside (-64) k (outside j (j + 16) (aslots A))).
Definition after_resume (k : Z) (A : ast) : ast :=
  Ast (fun r => match r with rbx | r15 => areg A r | rsp => Sp (k + 8) | _ => Top end)
      false false (aph A) (aslots A).

Definition flags_for (c : cond) (A : ast) : bool :=
  match c with CE | CNE => azf A | CL | CGE => alt A | CG => azf A && alt A end.
Definition w48 (w : Z) : bool := (w =? 4) || (w =? 8).
(* None: not understood *)
Definition t_p2 (pc : nat) (i : ins) (A : ast) : option aout :=
  match i with
  | Test w (I z) (R rax) => if (w =? 4) && (z =? 1) then Some (Nexts [(S pc, put_phase P3 (put_flags true true A))]) else None
  | _ => None
  end.
Definition t_p3 (pc : nat) (i : ins) (A : ast) : option aout :=
  match i with
  | Jcc CE l => if azf A then Some (Nexts [(l, put_phase P0 A); (S pc, put_phase P4 A)]) else None
  | _ => None
  end.
Definition t_alu_special (pc : nat) (o : alu) (w : Z) (src : opd) (r : reg) (A : ast) : option aout :=
  match r, src with
  | rsp, I z =>
      match areg A rsp with
      | Sp k =>
          let d := match o with Add => Some (k + z) | Sub => Some (k - z) | _ => None end in
          match d with
          | Some d => if (w =? 8) && (-64 <=? d) && (d <=? 0) && (0 <=? z) && (z <=? 64)
                      then Some (Nexts [(S pc, put_flags true true (put_reg rsp (Sp d) A))]) else None
          | None => None
          end
      | _ => None
      end
  | rbx, R rax =>
      match o, aph A, areg A rax with
      | Or, P4, Cst z => if (z =? suspend_mask) && (w =? 8) then Some (Nexts [(S pc, put_flags true true (put_phase P0 A))]) else None
      | _, _, _ => None
      end
  | _, _ => None
  end.
Definition is_vars0 (v : av) : bool := match v with Vars k => k =? 0 | _ => false end.
Definition is_zero (v : av) : bool := match v with Cst k => k =? 0 | _ => false end.
Definition is_text (k : Z) (v : av) : bool := match v with Text j => k =? j | _ => false end.
Definition t_alu_mem (pc : nat) (o : alu) (w : Z) (src : opd) (b : reg) (off : Z) (A : ast) : option aout :=
  match b, src, o, aph A with
  | rcx, I z, Or, P0 =>
      if is_vars0 (areg A rcx) && (w =? 4) && (z =? 2) && (off =? 20)
      then Some (Nexts [(S pc, put_flags true true (put_phase P1 (put_slots (weak_slots (aslots A)) A)))]) else None
  | rsp, _, _, _ =>
      if w =? 4 then
        match astore 4 rsp off Top A with Some A' => Some (Nexts [(S pc, put_flags true true A')]) | None => None end
      else None
  | _, _, _, _ => None
  end.
Definition t_push (k : Z) (v : av) (A : ast) : ast :=
  put_slots ((k - 8, v) :: outside (k - 8) k (aslots A)) (put_reg rsp (Sp (k - 8)) A).
Definition t_pop (pc : nat) (r : reg) (k : Z) (A : ast) : option aout :=
  let A1 := put_reg rsp (Sp (k + 8)) A in
  match r, slot k (aslots A) with
  | rbx, LimG => match aph A with P1 => Some (Nexts [(S pc, A1)]) | _ => None end
  | r15, v => if is_text 0 v then Some (Nexts [(S pc, A1)]) else None
  | rbx, _ | rsp, _ => None
  | _, _ => Some (Nexts [(S pc, put_reg r Top A1)])
  end.
Definition t_ret (k : Z) (A : ast) : option aout :=
  let A1 := put_reg rsp (Sp (k + 8)) A in
  match slot k (aslots A) with
  | Clock =>
      match aph A, slot (k + 8) (aslots A), areg A1 rsi with
      | P1, Code l, Sp j => if (k + 16 <=? 0) && (k + 16 <=? j) && (j + 16 <=? 0)
                            then Some (Leave true A1 (Some (l, after_clock (k + 8) j A1))) else None
      | _, _, _ => None
      end
  | Text 16 =>
      match aph A with
      | P0 => if k + 8 =? 0 then Some (Leave false A1 None)
              else match slot (k + 8) (aslots A) with
                   | Code l => if k + 16 <=? 0 then Some (Leave false A1 (Some (l, after_resume (k + 8) A1))) else None
                   | _ => None
                   end
      | _ => None
      end
  | _ => None
  end.
Definition t_plain (pc : nat) (i : ins) (A : ast) : option aout :=
  let go A := Some (Nexts [(S pc, A)]) in
  match i with
  | Mov w src (R r) =>
      if size_ok w && negb (special r) then go (put_reg r (if w48 w then aval w src A else Top) A) else None
  | Mov w src (M b None off) =>
      if w48 w then match astore w b off (aval w src A) A with Some A' => go A' | None => None end else None
  | Alu o w src (R r) =>
      if w48 w then
        if negb (special r) then go (put_flags true true (put_reg r (aalu o w src (R r) A) A))
        else t_alu_special pc o w src r A
      else None
  | Alu o w src (M b None off) => t_alu_mem pc o w src b off A
  | Cmp w _ _ | Test w _ _ => if size_ok w then go (put_flags true true A) else None
  | Lea (M b x off) r =>
      if special r then None else
      go (put_reg r (match areg A b, x with Text k, None => if (k + off =? 16) then Text 16 else Top | _, _ => Top end) A)
  | Jmp l => Some (Nexts [(l, A)])
  | Jcc c l => if flags_for c A then Some (Nexts [(l, A); (S pc, A)]) else None
  | Push r =>
      match areg A rsp with
      | Sp k => if -64 <=? k - 8 then go (t_push k (match r with rbx => areg A rbx | _ => weak (areg A r) end) A) else None
      | _ => None
      end
  | Call l =>
      match areg A rsp with
      | Sp k => if (-64 <=? k - 8) && (Z.of_nat pc <? 339) then Some (Nexts [(l, t_push k (Code (S pc)) A)]) else None
      | _ => None
      end
  | Pop r =>
      match areg A rsp with
      | Sp k => if k + 8 <=? 0 then t_pop pc r k A else None
      | _ => None
      end
  | Ret =>
      match areg A rsp with
      | Sp k => if k + 8 <=? 0 then t_ret k A else None
      | _ => None
      end
  | Xchg w rax (M rcx None off) =>
      match aph A with
      | P1 => if is_zero (areg A rax) && is_vars0 (areg A rcx) && (w =? 4) && (off =? 20)
              then go (put_phase P2 (put_reg rax Top A)) else None
      | _ => None
      end
  | Cmove w _ r => if special r || negb (azf A) || negb (w =? 4) then None else go (put_reg r Top A)
  | Mul _ => go (put_flags false false (put_reg rdx Top (put_reg rax Top A)))
  | Dec w r => if special r || negb (w48 w) then None else go (put_flags true true (put_reg r Top A))
  | Shl w n r | Shr w n r =>
      if special r || negb (w48 w) || (n <? 0) then None else go (put_flags true false (put_reg r Top A))
  | Syscall =>
      match aph A, areg A rax with
      | P0, Cst nr => if nr =? SYS_exit_group then Some (Sysc A None)
                      else if existsb (Z.eqb nr) permitted then Some (Sysc A (Some (after_sys A))) else None
      | _, _ => None
      end
  | _ => None
  end.
Definition atrans (pc : nat) (i : ins) (A : ast) : option aout :=
  match aph A with P2 => t_p2 pc i A | P3 => t_p3 pc i A | _ => t_plain pc i A end.

(* Whenever an entry is come to, it's like the beginning *)
Definition entry : ast :=
  Ast (fun r => match r with rbx => LimG | rsp => Sp 0 | r15 => Text 0 | _ => Top end) false false P0 [].
Definition like_entry (A : ast) : bool :=
  match areg A rbx, areg A rsp, areg A r15, aph A with LimG, Sp k, Text j, P0 => (k =? 0) && (j =? 0) | _, _, _, _ => false end.
Fixpoint explore (n : nat) (pc : nat) (A : ast) : bool :=
  let visit n p A := if existsb (Nat.eqb p) entries then like_entry A else explore n p A in
  match n with
  | O => false
  | S n =>
      match nth_error runtime pc with
      | None => false
      | Some i =>
          match atrans pc i A with
          | None => false
          | Some (Nexts l) => forallb (fun pA => visit n (fst pA) (snd pA)) l
          | Some (Sysc _ None) => true
          | Some (Sysc _ (Some A')) => visit n (S pc) A'
          | Some (Leave _ _ None) => true
          | Some (Leave _ _ (Some (p, A'))) => visit n p A'
          end
      end
  end.
