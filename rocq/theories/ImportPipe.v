(* ImportPipe.v: model of how the local client hands over a module through a pipe (cmd/gate/main/local.go:149-195 "import" of something else than
   a regular file, 299-328 "pull"), and of the daemon's reading of it (cmd/gate-daemon/main/daemoncmd.go:535-546, server/program.go:61-104, which
   reads the stream to its end, or server/upload.go:27-39 when the module is known).  The call returns after the daemon has read everything,
   and the client waits for it (local.go:183, 320).
   Simplified: the module is valid, and the daemon's own read buffering and the network copying of pull are left out (data arrives in
   any pieces). *)
From Coq Require Export List Arith Bool.
Export ListNotations.

(* left: bytes which the client's goroutine hasn't written; held: bytes in the pipe; got: bytes which the daemon has read; ended: the goroutine has
   returned; open: the client's process has the write end open (the daemon has only the read end); eof: the daemon has seen the end *)
Record pipe := Pipe { left : nat; held : nat; got : nat; ended : bool; open : bool; eof : bool; replied : bool }.

Inductive event :=
| Write (n : nat)      (* a part of the data enters the pipe *)
| End                  (* the goroutine has written everything *)
| Collect              (* the garbage collector finds the unreachable os.File and closes it *)
| Read (n : nat)
| ReadEnd
| Reply.

(* Before the call.  local.go:167-172 *)
Definition start (size : nat) : pipe := Pipe size 0 0 false true false false.
(* cap: the pipe's capacity (65536 by default).  closes: whether the goroutine closes the write end: local.go:314 (pull) does, 176-179 (import) doesn't. *)
Definition step (cap : nat) (closes : bool) (e : event) (s : pipe) : option pipe :=
  match e with
  | Write n => if (1 <=? n) && (n <=? left s) && (n + held s <=? cap) && negb (ended s)
               then Some (Pipe (left s - n) (held s + n) (got s) (ended s) (open s) (eof s) (replied s)) else None
  | End => if (left s =? 0) && negb (ended s) then Some (Pipe 0 (held s) (got s) true (open s && negb closes) (eof s) (replied s)) else None
  | Collect => if ended s && open s then Some (Pipe (left s) (held s) (got s) true false (eof s) (replied s)) else None
  | Read n => if (1 <=? n) && (n <=? held s) && negb (eof s) then Some (Pipe (left s) (held s - n) (got s + n) (ended s) (open s) (eof s) (replied s)) else None
  | ReadEnd => if (held s =? 0) && negb (open s) && negb (eof s) then Some (Pipe (left s) 0 (got s) (ended s) false true (replied s)) else None   (* pipe(7): a read returns 0 when there are no writers *)
  | Reply => if eof s && negb (replied s) then Some (Pipe (left s) (held s) (got s) (ended s) (open s) true true) else None
  end.
Fixpoint run (cap : nat) (closes : bool) (l : list event) (s : pipe) : option pipe :=
  match l with [] => Some s | e :: t => match step cap closes e s with Some s' => run cap closes t s' | None => None end end.

(* A regular file: nobody writes to it.  local.go:163-165: the daemon reads the file itself. *)
Fixpoint readFile (pieces : list nat) (s : nat) : option nat :=
  match pieces with [] => Some s | n :: t => if (1 <=? n) && (n <=? s) then readFile t (s - n) else None end.
