(* ExecRing.v: model of the status queue and the main loop of
   runtime/executor/executor.c (send_queued, wait_process, executor).

   The kernel's answers (how much was sent, which events there were) are the labels of the
   steps.  Statuses are pairs of process id and wait status. *)
From Verif Require Export Base.

(* executor.c:253-255: SEND_BUFLEN and POLL_BUFLEN *)
Definition N : nat := 128.
Definition entry := (Z * Z)%type.

(* executor.c:262-275 *)
Record ring := Ring { beg : nat; fin : nat; slots : list entry; blocked : bool }.
Definition ring0 : ring := Ring 0 0 (repeat (0, 0) N) false.

(* executor.c:427-430 *)
Definition queue_empty (q : ring) : bool := Nat.eqb (beg q) (fin q).
(* executor.c:432-435: unsigned (end - beg) & 127; both indexes are below 128 *)
Definition queue_length (q : ring) : nat := (fin q + N - beg q) mod N.
(* executor.c:437-441 *)
Definition queue_avail (q : ring) : nat := (N - 1) - queue_length q.
Definition set_slot (l : list entry) (i : nat) (e : entry) : list entry := firstn i l ++ e :: skipn (S i) l.
(* executor.c:515-520 *)
Definition push (q : ring) (e : entry) : ring := Ring (beg q) ((fin q + 1) mod N) (set_slot (slots q) (fin q) e) (blocked q).

(* The main loop's position, executor.c:526-562.  Handling n: n events of the last
   epoll_wait have not been handled yet. *)
Inductive pos := Sending | Waiting | Handling (n : nat) | Exited | Died.
(* The kernel's and the environment's part. *)
Inductive label :=
| LSent (n : nat)         (* send accepted n whole statuses *)
| LAgain                  (* send: EAGAIN *)
| LSendFailed             (* send: error, zero, or part of a status (executor.c:470-484) *)
| LLoop                   (* steps without the kernel *)
| LShutdown               (* the last process is gone after shutdown was requested *)
| LEvents (n : nat)       (* epoll_wait returns n events *)
| LReap (e : entry)       (* a process's event: waitpid gives its status *)
| LNotYet                 (* a process's event: waitpid gives nothing *)
| LControl (out : bool).  (* a control socket event, with or without EPOLLOUT *)

Record loop := Loop { q : ring; at_ : pos; reaped : list entry; sent : list entry }.
Definition loop0 : loop := Loop ring0 Sending [] [].

(* executor.c:461-466: how many contiguous statuses are offered to send *)
Definition offer (q : ring) : nat := if Nat.ltb (beg q) (fin q) then fin q - beg q else N - beg q.
(* executor.c:446-458: does send_queued return without calling send? *)
Definition returns (q : ring) : bool := queue_empty q || (negb (Nat.eqb (queue_avail q) 0) && blocked q).
Definition blocking (q : ring) : bool := Nat.eqb (queue_avail q) 0.
(* executor.c:531-535 *)
Definition buflen (q : ring) : nat := Nat.min (queue_avail q) N.

(* A blocking send does not fail with EAGAIN.  receive_ops (executor.c:532) does not
   touch the queue and is left out (Executor.v). *)
Definition step (s : loop) (l : label) : option loop :=
  match at_ s, l with
  | Sending, LSent n =>
      if returns (q s) || Nat.eqb n 0 || Nat.ltb (offer (q s)) n then None
      else Some (Loop (Ring ((beg (q s) + n) mod N) (fin (q s)) (slots (q s)) (blocked (q s))) Sending (reaped s)
                      (sent s ++ firstn n (skipn (beg (q s)) (slots (q s)))))
  | Sending, LAgain =>
      if returns (q s) || blocking (q s) then None
      else Some (Loop (Ring (beg (q s)) (fin (q s)) (slots (q s)) true) Waiting (reaped s) (sent s))
  | Sending, LSendFailed => if returns (q s) then None else Some (Loop (q s) Died (reaped s) (sent s))
  | Sending, LLoop => if returns (q s) then Some (Loop (q s) Waiting (reaped s) (sent s)) else None
  | Waiting, LEvents n =>        (* executor.c:537-541; a zero length array is an error *)
      if Nat.eqb (buflen (q s)) 0 then Some (Loop (q s) Died (reaped s) (sent s))
      else if Nat.eqb n 0 || Nat.ltb (buflen (q s)) n then None
      else Some (Loop (q s) (Handling n) (reaped s) (sent s))
  | Handling (S n), LReap e => Some (Loop (push (q s) e) (Handling n) (reaped s ++ [e]) (sent s))
  | Handling (S n), LNotYet => Some (Loop (q s) (Handling n) (reaped s) (sent s))
  | Handling (S n), LControl o =>  (* executor.c:547-552 *)
      Some (Loop (Ring (beg (q s)) (fin (q s)) (slots (q s)) (blocked (q s) && negb o)) (Handling n) (reaped s) (sent s))
  | Handling O, LLoop => Some (Loop (q s) Sending (reaped s) (sent s))
  | Handling O, LShutdown =>     (* executor.c:528 *)
      if queue_empty (q s) then Some (Loop (q s) Exited (reaped s) (sent s)) else None
  | _, _ => None
  end.
Fixpoint run (s : loop) (ls : list label) : option loop :=
  match ls with [] => Some s | l :: t => match step s l with Some s' => run s' t | None => None end end.
