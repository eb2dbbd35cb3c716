(* RuntimeKernel.v: the kernel's answers to the system calls of runtime.S, taken from the same world as those of Wasm.v,
   and the correspondence of a process and a state of Wasm.v. *)
From Verif Require Import Wasm.
From Verif Require Export RuntimeSpec.
Local Open Scope Z_scope.

(** ** Kernel *)

(* The answer to a system call: new world, result and memory; it may also not answer (yet) *)
Inductive answer := Answered (w : world) (r : Z) (m : Z -> Z) | Waiting | Unknown.

(* read(0, buf, n) *)
Definition sys_read (w : world) (m : Z -> Z) (buf n : Z) : answer :=
  match w_reads w with
  | [] => Waiting
  | r :: rest =>
      let c := Z.to_nat (Z.min r (Z.min n (len (w_input w)))) in
      let w' := World (skipn c (w_input w)) rest (w_writes w) (w_debugs w) (w_polls w) (w_times w) (w_random w) (w_resumes w) (w_sent w) (w_debug w) in
      if 0 <=? r then Answered w' (Z.of_nat c) (put_bytes m buf (firstn c (w_input w))) else Answered w' r m
  end.
(* write(1, buf, n) *)
Definition sys_write (w : world) (m : Z -> Z) (buf n : Z) : answer :=
  match w_writes w with
  | [] => Waiting
  | r :: rest =>
      let r := Z.min r n in
      Answered (World (w_input w) (w_reads w) rest (w_debugs w) (w_polls w) (w_times w) (w_random w) (w_resumes w)
                  (if 0 <? r then w_sent w ++ bytes_at m buf (Z.to_nat r) else w_sent w) (w_debug w)) r m
  end.
(* write(2, buf, n) *)
Definition sys_debug (w : world) (m : Z -> Z) (buf n : Z) : answer :=
  match w_debugs w with
  | [] => Waiting
  | r :: rest =>
      let r := Z.min r n in
      Answered (World (w_input w) (w_reads w) (w_writes w) rest (w_polls w) (w_times w) (w_random w) (w_resumes w) (w_sent w)
                  (if 0 <? r then w_debug w ++ bytes_at m buf (Z.to_nat r) else w_debug w)) r m
  end.
(* ppoll(fds, 2, NULL, NULL): it returns when there is something to report *)
Fixpoint sys_ppoll (answers : list poll_answer) (w : world) (m : Z -> Z) (fds : Z) : answer :=
  match answers with
  | [] => Waiting
  | a :: rest =>
      let w' := World (w_input w) (w_reads w) (w_writes w) (w_debugs w) rest (w_times w) (w_random w) (w_resumes w) (w_sent w) (w_debug w) in
      match a with
      | PollErrno e => Answered w' (- e) m
      | Revents c0 c1 =>
          let r0 := reported (ld 2 m (fds + 4)) c0 in
          let r1 := reported (ld 2 m (fds + 12)) c1 in
          if (r0 =? 0) && (r1 =? 0) then sys_ppoll rest w' m fds
          else Answered w' ((if r0 =? 0 then 0 else 1) + (if r1 =? 0 then 0 else 1)) (sto 2 (sto 2 m (fds + 6) r0) (fds + 14) r1)
      end
  end.
(* By number and arguments *)
Definition kernel (w : world) (s : cpu) : answer :=
  let g := rg s in let m := mm s in
  if (rget rax g =? SYS_read) && (rget rdi g =? 0) then sys_read w m (rget rsi g) (rget rdx g)
  else if (rget rax g =? SYS_write) && (rget rdi g =? 1) then sys_write w m (rget rsi g) (rget rdx g)
  else if (rget rax g =? SYS_write) && (rget rdi g =? 2) then sys_debug w m (rget rsi g) (rget rdx g)
  else if (rget rax g =? SYS_ppoll) && (rget rsi g =? 2) && (rget rdx g =? 0) && (rget r10 g =? 0) &&
          (ld 4 m (rget rdi g) =? 0) && (ld 4 m (rget rdi g + 8) =? 1) then sys_ppoll (w_polls w) w m (rget rdi g)
  else Unknown.

(* Execution in a world comes to a result, whatever values the kernel leaves in the registers that it doesn't preserve *)
Inductive leads : world -> event -> (world -> event -> Prop) -> Prop :=
| leads_there w e (Q : world -> event -> Prop) : Q w e -> leads w e Q
| leads_on w e e' Q : comes_to e e' -> leads w e' Q -> leads w e Q
| leads_sys w s w' r m Q : kernel w s = Answered w' r m ->
    (forall c k, 0 <= c < 2 ^ 64 -> 0 <= k < 2 ^ 64 -> leads w' (More (sysret s r c k m)) Q) -> leads w (AtSyscall s) Q.

(** ** Correspondence *)

(* Random bytes of the process that haven't been given out, in order *)
Definition random_left (m : Z -> Z) (text n : Z) : list Z := map (fun i => v_random m text (Z.of_nat i)) (rev (seq 0 (Z.to_nat n))).
(* What the process's memory says of the program's state *)
Record shows (m : Z -> Z) (text vars : Z) (t : st) : Prop := Shows {
  sh_pages : pages t = s_pages m vars;
  sh_mem : forall a, 0 <= a < 2 ^ 32 -> mem t a = m (v_memory m text + a);
  sh_avail : 0 <= s_random_avail m vars <= 16;
  sh_random : w_random (wd t) = random_left m text (s_random_avail m vars);
}.
(* Answers that kernels give *)
Record answers_ok (w : world) : Prop := AnswersOk {
  ao_input : Forall (fun b => 0 <= b < 256) (w_input w);
  ao_reads : Forall (fun r => -4095 <= r) (w_reads w);
  ao_writes : Forall (fun r => -4095 <= r) (w_writes w);
  ao_debugs : Forall (fun r => -4095 <= r) (w_debugs w);
  ao_polls : Forall (fun a => match a with Revents c0 c1 => 0 <= c0 < 65536 /\ 0 <= c1 < 65536 | PollErrno e => 0 < e <= 4095 end) (w_polls w);
}.
(* Code and arguments of a function *)
Definition rt_label (f : rtf) : nat :=
  match f with
  | RtNop => L_rt_nop | RtDebug => L_rt_debug | RtPoll => L_rt_poll | RtRandom => L_rt_random | RtRead => L_rt_read
  | RtStop => L_rt_stop | RtTime => L_rt_time | RtWrite => L_rt_write
  end.
Definition rt_args (m : Z -> Z) (sp : Z) (f : rtf) : list Z :=
  match f with
  | RtNop | RtRandom => []
  | RtStop | RtTime => [arg2 m sp]
  | RtDebug | RtPoll | RtRead | RtWrite => [arg1 m sp; arg2 m sp]
  end.
(* The kernel's part of the world (the random bytes are in the process) *)
Definition kernels (w : world) : world :=
  World (w_input w) (w_reads w) (w_writes w) (w_debugs w) (w_polls w) (w_times w) [] (w_resumes w) (w_sent w) (w_debug w).
(* The process has come to where the state and outcome of Wasm.v say *)
Definition agrees (s : cpu) (sp text vars : Z) (t : st) (o : out) (w : world) (e : event) : Prop :=
  match o with
  | Next v => kernels w = kernels (wd t) /\
      exists s2, e = Outside (text + 16) s2 /\ (forall x, v = Some x -> rget rax (rg s2) = x) /\
        rget rsp (rg s2) = sp /\ rget r15 (rg s2) = text /\ rget rbx (rg s2) = rget rbx (rg s) /\ shows (mm s2) text vars t
  | Exit code => kernels w = kernels (wd t) /\
      exists s2, e = More s2 /\ exits_with s2 sp text vars code /\ shows (mm s2) text vars t
  | Blocked _ => w_input w = w_input (wd t) /\ w_sent w = w_sent (wd t) /\ w_debug w = w_debug (wd t) /\
      exists s2, e = AtSyscall s2 /\ kernel w s2 = Waiting
  | _ => False
  end.
