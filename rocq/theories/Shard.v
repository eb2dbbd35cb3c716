(* Shard.v: model of runtime/shard.go (distribution of process requests) and
   runtime/prefork.go (preparation of processes in advance). *)
From Verif Require Export Base.

(* ---- runtime/prefork.go ---- *)

(* prefork.go:14-17 ResultProcess: a process (identified by a number) or an error *)
Inductive item := Proc (p : nat) | Fail.

(* prefork.go:22-50 PrepareProcesses: where the goroutine is. *)
Inductive phase :=
| Making                 (* in f.NewProcess, line 35 *)
| Sending (x : item)     (* in the select, lines 37-45 *)
| Draining               (* the channel is closed and being drained, lines 28-32 *)
| Ended.
(* how an item left the channel *)
Inductive fate := Delivered (who : nat) | Killed.

Record prep := Prep {
  cap : nat;                   (* of the channel *)
  buf : list item;             (* in the channel *)
  ph : phase;
  done : bool;                 (* the preparation context *)
  made : list item;            (* ghost: all the items the factory produced, in order *)
  taken : list (item * fate);  (* ghost: what happened to the items that left the channel *)
  dropped : list item;         (* ghost: the item killed at line 42 *)
}.

(* prefork.go:23: make(chan ResultProcess, bufsize-1) *)
Definition PrepareProcesses (bufsize : Z) : res prep :=
  if bufsize <? 1 then Panic
  else Ok (Prep (Z.to_nat (bufsize - 1)) [] Making false [] [] []).

Inductive action :=
| AMake (ok : bool)       (* f.NewProcess returns a new process or an error *)
| ASend                   (* line 38, to the buffer *)
| AHand (who : nat)       (* line 38, directly to a receiver that waits (line 54) *)
| ARecv (who : nat)       (* a receiver takes a buffered item, line 54 *)
| ACancel                 (* the preparation context is cancelled *)
| AExit                   (* lines 40-44 and close, line 27 *)
| ADrain                  (* lines 28-32 *)
| AEnd.                   (* the range loop finds the closed channel empty *)

(* The processes made are numbered by the number of items made before. *)
Definition step (s : prep) (a : action) : option prep :=
  match a, ph s with
  | AMake ok, Making =>
      let x := if ok then Proc (length (made s)) else Fail in
      Some (Prep (cap s) (buf s) (Sending x) (done s) (made s ++ [x]) (taken s) (dropped s))
  | ASend, Sending x =>
      if Nat.ltb (length (buf s)) (cap s)
      then Some (Prep (cap s) (buf s ++ [x]) Making (done s) (made s) (taken s) (dropped s))
      else None
  | AHand who, Sending x =>
      match buf s with
      | [] => Some (Prep (cap s) [] Making (done s) (made s) (taken s ++ [(x, Delivered who)]) (dropped s))
      | _ => None
      end
  | ARecv who, _ =>
      match buf s with
      | [] => None
      | x :: t => Some (Prep (cap s) t (ph s) (done s) (made s) (taken s ++ [(x, Delivered who)]) (dropped s))
      end
  | ACancel, _ => Some (Prep (cap s) (buf s) (ph s) true (made s) (taken s) (dropped s))
  | AExit, Sending x =>
      if done s then Some (Prep (cap s) (buf s) Draining true (made s) (taken s) [x]) else None
  | ADrain, Draining =>
      match buf s with
      | [] => None
      | x :: t => Some (Prep (cap s) t Draining (done s) (made s) (taken s ++ [(x, Killed)]) (dropped s))
      end
  | AEnd, Draining =>
      match buf s with
      | [] => Some (Prep (cap s) [] Ended (done s) (made s) (taken s) (dropped s))
      | _ => None
      end
  | _, _ => None
  end.
Fixpoint run (s : prep) (l : list action) : option prep :=
  match l with [] => Some s | a :: t => match step s a with Some s => run s t | None => None end end.

(* ---- runtime/shard.go ---- *)

(* What a non-blocking receive (shard.go:78-92) finds. *)
Inductive poll := PEmpty | PClosed | PItem (x : item).
(* What a NewProcess call returns, with the channel the item was received from. *)
Inductive outcome := Got (channel : nat) (x : item) | CtxErr | ClosedErr | Crash.

(* shard.go:97-104: the indexes 0..n-1 without choice *)
Fixpoint fill (k : nat) (value choice : nat) : list nat :=
  match k with
  | O => []
  | S k => let v := if Nat.eqb value choice then S value else value in v :: fill k (S v) choice
  end.

(* shard.go:106: append(unseen[:choice], unseen[choice+1:]...); unseen[choice+1:]
   panics if choice+1 > len(unseen).  (unseen[:choice] is limited by the capacity,
   which is len(channels)-1.) *)
Definition remove_at (choice : nat) (unseen : list nat) : option (list nat) :=
  if Nat.leb (S choice) (length unseen)
  then Some (firstn choice unseen ++ skipn (S choice) unseen) else None.

Definition received (ctxdone : bool) (c : nat) (p : poll) : outcome :=
  match p with
  | PItem x => Got c x
  | _ => if ctxdone then CtxErr else ClosedErr
  end.

Section chanSharder.
  Variable rnd : nat -> nat.            (* random numbers; rand.Intn(n) is rnd k mod n *)
  Variable polls : nat -> nat -> poll.  (* what attempt k finds in a channel *)
  Variable ctxdone : bool.              (* whether ctx is done when a channel is found closed *)
  Variable last : option poll.          (* shard.go:115, prefork.go:52-70: what the blocking receive
                                           on the first choice finds (PEmpty does not occur),
                                           or none if ctx is done *)

  (* shard.go:67-113, with unseen non-nil *)
  Fixpoint shard_loop (fuel k : nat) (first : nat) (unseen : list nat) : outcome * list nat :=
    match unseen, fuel with
    | [], _ | _, O =>
        (match last with None => CtxErr | Some p => received ctxdone first p end, [first])
    | _, S fuel =>
        let choice := nth (rnd k mod length unseen) unseen O in
        match polls k choice with
        | PEmpty => match remove_at choice unseen with
                    | None => (Crash, [choice])
                    | Some u => let (r, t) := shard_loop fuel (S k) first u in (r, choice :: t)
                    end
        | p => (received ctxdone choice p, [choice])
        end
    end.

  (* shard.go:64-116 chanSharder.NewProcess with n channels: the result and the
     channels that were tried, in order *)
  Definition shard_NewProcess (n : nat) : outcome * list nat :=
    match n with
    | O => (Crash, [])   (* rand.Intn(0) panics *)
    | S m =>
        let first := (rnd 0 mod n)%nat in
        match polls 0 first with
        | PEmpty => let (r, t) := shard_loop n 1 first (fill m 0 first) in (r, first :: t)
        | p => (received ctxdone first p, [first])
        end
    end.
End chanSharder.

(* prefork.go:52-70 ProcessChan.NewProcess *)
Definition chan_NewProcess (ctxdone : bool) (last : option poll) : outcome :=
  match last with None => CtxErr | Some p => received ctxdone 0 p end.
