(* Wasm.v: the subset of WebAssembly that runtime/abi/library.wat uses, in its folded form, and its execution,
   with the runtime functions of runtime/loader/x86_64/runtime.S:340-583 as imports.

   Values are unsigned integers.  The kernel's answers to the system calls are part of the state (world).
   Left out: suspension at loops and calls (the state is resumed as it was), stack exhaustion. *)
From Verif Require Export Base.

(** ** Syntax *)

Inductive bop := Add32 | Sub32 | And32 | Or32 | Eq32 | Ne32 | LtU32 | GeU32 | GeS32 | And64 | Eq64 | Ne64.
(* The imports of library.wat:8-15 *)
Inductive rtf := RtDebug | RtNop | RtPoll | RtRandom | RtRead | RtStop | RtTime | RtWrite.
Inductive ins :=
| Const (v : Z)
| Get (x : nat)
| Set_ (x : nat) (e : ins)
| Bin (o : bop) (a b : ins)
| Eqz (a : ins)
| Wrap (a : ins)                          (* i32.wrap/i64 *)
| Load (n : nat) (off : Z) (a : ins)      (* n bytes, zero extended *)
| Store (n : nat) (off : Z) (a v : ins)   (* the low n bytes *)
| Call0 (f : rtf) | Call1 (f : rtf) (a : ins) | Call2 (f : rtf) (a b : ins)
| Block (b : list ins)
| Loop (b : list ins)
| If (c : ins) (t e : list ins)
| Br (n : nat)
| BrIf (n : nat) (c : ins)
| Return (e : ins)
| Drop (e : ins).
(* A function: number of parameters, number of other locals, body *)
Record func := Func { f_params : nat; f_locals : nat; f_body : list ins }.

(** ** State *)

(* What happens while ppoll(2) is waiting: conditions of the two files (POLL* bits), or an error *)
Inductive poll_answer := Revents (r0 r1 : Z) | PollErrno (e : Z).
(* Kernel and process environment. *)
Record world := World {
  w_input : bytes;              (* what is still to be read *)
  w_reads : list Z;             (* answers to the coming reads: counts (cut to the requested length and to the
                                   input), 0 at end of file, or -errno *)
  w_writes : list Z;            (* to writes: positive counts (cut to the requested length), 0, or -errno *)
  w_debugs : list Z;            (* to debug writes *)
  w_polls : list poll_answer;
  w_times : list (Z -> Z);      (* what the clocks (by number) show at the coming calls of rt_time *)
  w_random : list Z;            (* remaining random bytes *)
  w_resumes : list (list Z);    (* coming resumptions after a stop: the new random bytes *)
  w_sent : bytes;               (* what has been written so far *)
  w_debug : bytes;
}.
Record st := St { mem : Z -> Z; pages : Z; loc : list Z; wd : world }.
Definition set_mem (s : st) m := St m (pages s) (loc s) (wd s).
Definition set_loc (s : st) l := St (mem s) (pages s) l (wd s).
Definition set_wd (s : st) w := St (mem s) (pages s) (loc s) w.

(* How an instruction ends *)
Inductive out :=
| Next (v : option Z)     (* falls through, with a value or none *)
| Brk (n : nat)           (* branches to the n-th enclosing label *)
| Ret (v : option Z)      (* returns *)
| Exit (code : Z)         (* the process has exited *)
| Blocked (f : rtf)       (* waiting for the kernel *)
| Fuel                    (* the bound on loop iterations of the interpreter is reached *)
| Wrong.                  (* ill-typed program *)

(** ** Memory *)

Definition mem_size (s : st) : Z := pages s * 65536.
Definition byte_at (m : Z -> Z) (a : Z) : Z := m a.
Fixpoint bytes_at (m : Z -> Z) (a : Z) (n : nat) : bytes :=
  match n with O => [] | S k => m a :: bytes_at m (a + 1) k end.
Fixpoint put_bytes (m : Z -> Z) (a : Z) (l : bytes) : Z -> Z :=
  match l with [] => m | b :: t => put_bytes (fun x => if x =? a then b else m x) (a + 1) t end.

(* 100+5, runtime.S:198 and 432: MemoryAccessOutOfBounds *)
Definition out_of_bounds : out := Exit 105.
Definition load (n : nat) (ea : Z) (s : st) : st * out :=
  if mem_size s <? ea + Z.of_nat n then (s, out_of_bounds) else (s, Next (Some (unle (bytes_at (mem s) ea n)))).
Definition store (n : nat) (ea v : Z) (s : st) : st * out :=
  if mem_size s <? ea + Z.of_nat n then (s, out_of_bounds) else (set_mem s (put_bytes (mem s) ea (le n v)), Next None).

(** ** Runtime functions *)

(* runtime/include/errors.h:51-57 *)
Definition ERR_RT_READ : Z := 4.
Definition ERR_RT_WRITE : Z := 5.
Definition ERR_RT_DEBUG : Z := 6.
Definition ERR_RT_POLL : Z := 10.
Definition EAGAIN : Z := 11.
Definition EINTR : Z := 4.

(* runtime.S:47-66 io_prologue: a zero length is answered at once.  The 32-bit shift of line 49 limits the
   memory size to 32 bits. *)
Definition io_prologue (addr n : Z) (s : st) (k : st * out) : st * out :=
  if n =? 0 then (s, Next (Some 0))
  else if u32 (pages s * 65536) <? addr + n then (s, out_of_bounds) else k.

(* runtime.S:394-409 *)
Definition rt_read (addr n : Z) (s : st) : st * out :=
  io_prologue addr n s
    (let w := wd s in
     match w_reads w with
     | [] => (s, Blocked RtRead)
     | r :: rest =>
         let c := Z.to_nat (Z.min r (Z.min n (len (w_input w)))) in
         let s' := set_wd s (World (skipn c (w_input w)) rest (w_writes w) (w_debugs w) (w_polls w) (w_times w) (w_random w) (w_resumes w) (w_sent w) (w_debug w)) in
         if 0 <=? r then (set_mem s' (put_bytes (mem s) addr (firstn c (w_input w))), Next (Some (Z.of_nat c)))
         else if (r =? - EAGAIN) || (r =? - EINTR) then (s', Next (Some 0)) else (s', Exit ERR_RT_READ)
     end).

(* runtime.S:415-430; a count of 0 is an error here *)
Definition rt_write (addr n : Z) (s : st) : st * out :=
  io_prologue addr n s
    (let w := wd s in
     match w_writes w with
     | [] => (s, Blocked RtWrite)
     | r :: rest =>
         let r := Z.min r n in
         let sent := if 0 <? r then w_sent w ++ bytes_at (mem s) addr (Z.to_nat r) else w_sent w in
         let s := set_wd s (World (w_input w) (w_reads w) rest (w_debugs w) (w_polls w) (w_times w) (w_random w) (w_resumes w) sent (w_debug w)) in
         if 0 <? r then (s, Next (Some r))
         else if (r =? - EAGAIN) || (r =? - EINTR) then (s, Next (Some 0)) else (s, Exit ERR_RT_WRITE)
     end).

(* runtime.S:562-583: the address and length on the stack are advanced, and everything is done again, until
   the length is zero, or the kernel answers 0 *)
Fixpoint rt_debug (answers : list Z) (addr n : Z) (s : st) : st * out :=
  io_prologue addr n s
    (let w := wd s in
     match answers with
     | [] => (s, Blocked RtDebug)
     | r :: rest =>
         let r := Z.min r n in
         let dbg := if 0 <? r then w_debug w ++ bytes_at (mem s) addr (Z.to_nat r) else w_debug w in
         let s := set_wd s (World (w_input w) (w_reads w) (w_writes w) rest (w_polls w) (w_times w) (w_random w) (w_resumes w) (w_sent w) dbg) in
         if 0 <? r then if n - r =? 0 then (s, Next (Some 0)) else rt_debug rest (addr + r) (n - r) s
         else if r =? 0 then (s, Next (Some 0))
         else if r =? - EINTR then rt_debug rest addr n s else (s, Exit ERR_RT_DEBUG)
     end).

(* poll.S, and bits that are reported without a request *)
Definition POLLIN : Z := 1.
Definition POLLOUT : Z := 4.
Definition POLLERR : Z := 8.
Definition POLLHUP : Z := 16.
Definition POLLNVAL : Z := 32.
Definition POLLRDHUP : Z := 8192.
(* What the kernel reports: requested conditions, errors and hang-ups *)
Definition reported (events cond : Z) : Z := Z.land cond (Z.lor events (Z.lor POLLERR (Z.lor POLLHUP POLLNVAL))).
(* runtime.S:340-388; conditions that are not to be reported don't end the waiting *)
Fixpoint rt_poll (answers : list poll_answer) (ev_in ev_out : Z) (s : st) : st * out :=
  match answers with
  | [] => (s, Blocked RtPoll)
  | a :: rest =>
      let w := wd s in
      let s := set_wd s (World (w_input w) (w_reads w) (w_writes w) (w_debugs w) rest (w_times w) (w_random w) (w_resumes w) (w_sent w) (w_debug w)) in
      match a with
      | PollErrno e => if (e =? EAGAIN) || (e =? EINTR) then (s, Next (Some 0)) else (s, Exit ERR_RT_POLL)
      | Revents c0 c1 =>
          let r0 := reported ev_in c0 in
          let r1 := reported ev_out c1 in
          if (r0 =? 0) && (r1 =? 0) then rt_poll rest ev_in ev_out s
          else if negb (Z.land r0 (Z.lor POLLHUP POLLRDHUP) =? 0) then (s, Next (Some 0))
          else if negb (Z.land r0 (Z.lnot POLLIN) =? 0) then (s, Exit ERR_RT_POLL)
          else if negb (Z.land r1 (Z.lnot POLLOUT) =? 0) then (s, Exit ERR_RT_POLL)
          else (s, Next (Some (Z.lor r0 r1)))
      end
  end.

(* runtime.S:502-516: bytes are taken until there are none; then -1 *)
Definition rt_random (s : st) : st * out :=
  let w := wd s in
  match w_random w with
  | [] => (s, Next (Some (2 ^ 32 - 1)))
  | b :: rest => (set_wd s (World (w_input w) (w_reads w) (w_writes w) (w_debugs w) (w_polls w) (w_times w) rest (w_resumes w) (w_sent w) (w_debug w)), Next (Some b))
  end.

(* runtime.S:521-555: the process exits.  If the program is resumed later, in a new process with new random
   bytes, the call's result is 0 (runtime.S:140). *)
Definition rt_stop (code : Z) (s : st) : st * out :=
  let w := wd s in
  match w_resumes w with
  | [] => (s, Exit code)
  | r :: rest => (set_wd s (World (w_input w) (w_reads w) (w_writes w) (w_debugs w) (w_polls w) (w_times w) r rest (w_sent w) (w_debug w)), Next (Some 0))
  end.

(* runtime.S:440-496, as far as the library is concerned *)
Definition rt_time (clock : Z) (s : st) : st * out :=
  let w := wd s in
  match w_times w with
  | [] => (s, Blocked RtTime)
  | t :: rest => (set_wd s (World (w_input w) (w_reads w) (w_writes w) (w_debugs w) (w_polls w) rest (w_random w) (w_resumes w) (w_sent w) (w_debug w)), Next (Some (t clock)))
  end.

Definition call_rt (f : rtf) (args : list Z) (s : st) : st * out :=
  match f, args with
  | RtNop, [] => (s, Next None)
  | RtDebug, [a; n] => match rt_debug (w_debugs (wd s)) a n s with (s, Next _) => (s, Next None) | r => r end
  | RtPoll, [a; b] => rt_poll (w_polls (wd s)) a b s
  | RtRandom, [] => rt_random s
  | RtRead, [a; n] => rt_read a n s
  | RtStop, [c] => rt_stop c s
  | RtTime, [c] => rt_time c s
  | RtWrite, [a; n] => rt_write a n s
  | _, _ => (s, Wrong)
  end.

(** ** Execution *)

Definition bool_z (b : bool) : Z := if b then 1 else 0.
Definition binop (o : bop) (a b : Z) : Z :=
  match o with
  | Add32 => u32 (a + b) | Sub32 => u32 (a - b) | And32 => Z.land a b | Or32 => Z.lor a b
  | Eq32 => bool_z (a =? b) | Ne32 => bool_z (negb (a =? b))
  | LtU32 => bool_z (a <? b) | GeU32 => bool_z (b <=? a) | GeS32 => bool_z (s32 b <=? s32 a)
  | And64 => Z.land a b | Eq64 => bool_z (a =? b) | Ne64 => bool_z (negb (a =? b))
  end.
Fixpoint upd (x : nat) (v : Z) (l : list Z) : list Z :=
  match l, x with
  | [], _ => []
  | _ :: t, O => v :: t
  | h :: t, S k => h :: upd k v t
  end.
(* Pass a value on, or stop. *)
Definition andv (r : st * out) (k : Z -> st -> st * out) : st * out :=
  match r with (s, Next (Some v)) => k v s | (s, Next None) => (s, Wrong) | r => r end.
Definition exec (ev : ins -> st -> st * out) : list ins -> st -> st * out :=
  fix exec (l : list ins) (s : st) : st * out :=
  match l with
  | [] => (s, Next None)
  | [i] => ev i s
  | i :: t => match ev i s with (s', Next _) => exec t s' | r => r end
  end.
(* Leaving a block. *)
Definition leave (r : st * out) : st * out :=
  match r with
  | (s, Brk O) => (s, Next None)
  | (s, Brk (S n)) => (s, Brk n)
  | r => r
  end.

(* k bounds the number of times that loops are continued. *)
Fixpoint eval (k : nat) : ins -> st -> st * out :=
  fix ev (i : ins) (s : st) {struct i} : st * out :=
    match i with
    | Const v => (s, Next (Some v))
    | Get x => match nth_error (loc s) x with Some v => (s, Next (Some v)) | None => (s, Wrong) end
    | Set_ x e => andv (ev e s) (fun v s => (set_loc s (upd x v (loc s)), Next None))
    | Bin o a b => andv (ev a s) (fun x s => andv (ev b s) (fun y s => (s, Next (Some (binop o x y)))))
    | Eqz a => andv (ev a s) (fun x s => (s, Next (Some (bool_z (x =? 0)))))
    | Wrap a => andv (ev a s) (fun x s => (s, Next (Some (u32 x))))
    | Load n off a => andv (ev a s) (fun x s => load n (x + off) s)
    | Store n off a v => andv (ev a s) (fun x s => andv (ev v s) (fun y s => store n (x + off) y s))
    | Call0 f => call_rt f [] s
    | Call1 f a => andv (ev a s) (fun x s => call_rt f [x] s)
    | Call2 f a b => andv (ev a s) (fun x s => andv (ev b s) (fun y s => call_rt f [x; y] s))
    | Block b => leave (exec ev b s)
    | Loop b =>
        match exec ev b s with
        | (s', Brk O) => match k with O => (s', Fuel) | S k' => eval k' (Loop b) s' end
        | (s', Brk (S n)) => (s', Brk n)
        | r => r
        end
    | If c t e => andv (ev c s) (fun x s => leave (if x =? 0 then exec ev e s else exec ev t s))
    | Br n => (s, Brk n)
    | BrIf n c => andv (ev c s) (fun x s => (s, if x =? 0 then Next None else Brk n))
    | Return e => andv (ev e s) (fun x s => (s, Ret (Some x)))
    | Drop e => andv (ev e s) (fun _ s => (s, Next None))
    end.

(* Call a function with arguments. *)
Definition invoke (k : nat) (f : func) (args : list Z) (s : st) : st * out :=
  match exec (eval k) (f_body f) (set_loc s (args ++ repeat 0 (f_locals f))) with
  | (s', Next v) => (s', Ret v)
  | (s', Brk O) => (s', Ret None)
  | r => r
  end.
