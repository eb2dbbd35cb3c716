(* Executor.v: model of process creation and control in runtime/executor.go (execute,
   sender, receiver, killSuspend, finalize), together with the part of
   runtime/executor/executor.c which handles requests (receive_ops) and reaps processes
   (wait_process).

   A step is one event: of a caller of the API, of the sender or the receiver goroutine, or
   of the executor process.  All interleavings of events are histories.  Processes are
   numbered in the order of creation.  The requests and statuses carry, beside what the
   code sends, the number of the process on whose behalf they were made; the model's steps
   do not look at it (it is only recorded in signals and delivered).
   Left out: the contents of statuses (ExitStatus.v), batching of messages and the status
   ring (ExecRing.v), file descriptors. *)
From Verif Require Export Base.

Inductive op := Kill | Suspend.
(* executor.go:288-292: the atomic control word: an id, or one of the three constants. *)
Inductive word := Live | Killed | Suspended | Finalized.
(* The goroutine which won the compare-and-swap: executor.go:322-335 and 347-361. *)
Inductive own := Nobody | Queueing (o : op) | Returning.
(* executor.go:131-169 *)
Inductive stage := Drawn | Created | Cancelled.
(* executor.go:296-301 *)
Record proc := Proc { pid : nat; ctl : word; act : own; stg : stage }.
(* executor.c:229-233 (exec_request), with the process's number *)
Inductive msg := MCreate (id h : nat) | MOp (o : op) (id h : nat).

Record exec := Exec {
  pool : list nat;                  (* executor.go:35: ids *)
  procs : list proc;                (* all processes ever created *)
  killq : list (op * nat * nat);    (* executor.go:37: killRequests *)
  wire : list msg;                  (* socket, towards the executor process *)
  table : nat -> option nat;        (* executor.c:280: id_procs, those with pid != 0 *)
  swire : list (nat * nat);         (* status queue and socket, from the executor process *)
  pmap : nat -> option nat;         (* executor.go:42: procs *)
  signals : list (op * nat * nat);  (* operation, on whose behalf, to whom *)
  delivered : list (nat * nat);     (* whose status, to whom *)
  died : bool;                      (* executor.c: die *)
  panicked : bool;                  (* the receiver dereferenced nil *)
  down : bool }.                    (* executor.go:38: doneSending is closed *)

(* executor.go:80-95 *)
Definition exec0 (n : nat) : exec := Exec (seq 0 n) [] [] [] (fun _ => None) [] (fun _ => None) [] [] false false false.

Definition upd (f : nat -> option nat) (k : nat) (v : option nat) : nat -> option nat := fun x => if Nat.eqb x k then v else f x.
Definition set_proc (l : list proc) (h : nat) (p : proc) : list proc := firstn h l ++ p :: skipn (S h) l.

Inductive event :=
| EDraw              (* execute: an id is received from the pool; init *)
| ECreate (h : nat)  (* execute and sender: the request is passed on and written *)
| ECancel (h : nat)  (* execute: the context is done, or the executor is *)
| EKill (h : nat) | ESuspend (h : nat) | EFinalize (h : nat)   (* compare-and-swap *)
| EQueue (h : nat)   (* killRequests <- value *)
| EReturn (h : nat)  (* ids <- id *)
| ESeeDead (h : nat) (* finalize: p.dead is closed *)
| EGiveUp (h : nat)  (* killSuspend: doneSending *)
| ESendOp            (* sender: id := <-killRequests, written *)
| EExec              (* executor process: one request *)
| EReap (id : nat)   (* executor process: wait_process *)
| EReceive           (* receiver: one status *)
| EStop.             (* sender ends: Close or a socket error *)

(* executor.go:317-345: kill, suspend, finalize: compare-and-swap *)
Definition control (s : exec) (h : nat) (w : word) (o : op) : option exec :=
  match nth_error (procs s) h with
  | Some (Proc id c a Created) =>
      Some (match c with
      | Live => Exec (pool s) (set_proc (procs s) h (Proc id w (Queueing o) Created)) (killq s) (wire s) (table s) (swire s) (pmap s)
                     (signals s) (delivered s) (died s) (panicked s) (down s)
      | _ => s
      end)
  | _ => None
  end.

Definition step (s : exec) (e : event) : option exec :=
  if panicked s then None else
  match e with
  | EDraw =>                       (* executor.go:132-140, 303-307 *)
      match pool s with
      | id :: rest => Some (Exec rest (procs s ++ [Proc id Live Nobody Drawn]) (killq s) (wire s) (table s) (swire s) (pmap s) (signals s) (delivered s) (died s) (panicked s) (down s))
      | [] => None
      end
  | ECreate h =>                   (* executor.go:154-157, 209-218 and 247 *)
      match nth_error (procs s) h with
      | Some (Proc id c a Drawn) =>
          if down s then None
          else Some (Exec (pool s) (set_proc (procs s) h (Proc id c a Created)) (killq s) (wire s ++ [MCreate id h]) (table s) (swire s)
                          (upd (pmap s) id (Some h)) (signals s) (delivered s) (died s) (panicked s) (down s))
      | _ => None
      end
  | ECancel h =>                   (* executor.go:159-167 *)
      match nth_error (procs s) h with
      | Some (Proc id c a Drawn) => Some (Exec (pool s) (set_proc (procs s) h (Proc id c a Cancelled)) (killq s) (wire s) (table s) (swire s) (pmap s) (signals s) (delivered s) (died s) (panicked s) (down s))
      | _ => None
      end
  | EKill h => control s h Killed Kill
  | ESuspend h => control s h Suspended Suspend
  | EFinalize h => control s h Finalized Kill
  | EQueue h =>                    (* executor.go:330, 353-354; the channel's capacity is 16 *)
      match nth_error (procs s) h with
      | Some (Proc id c (Queueing o) g) =>
          if Nat.ltb (length (killq s)) 16
          then Some (Exec (pool s) (set_proc (procs s) h (Proc id c Returning g)) (killq s ++ [(o, id, h)]) (wire s) (table s) (swire s) (pmap s) (signals s) (delivered s) (died s) (panicked s) (down s))
          else None
      | _ => None
      end
  | EReturn h =>                   (* executor.go:331, 355-356 *)
      match nth_error (procs s) h with
      | Some (Proc id c Returning g) => Some (Exec (pool s ++ [id]) (set_proc (procs s) h (Proc id c Nobody g)) (killq s) (wire s) (table s) (swire s) (pmap s) (signals s) (delivered s) (died s) (panicked s) (down s))
      | _ => None
      end
  | ESeeDead h =>                  (* executor.go:362-366 *)
      match nth_error (procs s) h with
      | Some (Proc id Finalized (Queueing o) g) =>
          if existsb (fun d => Nat.eqb (snd d) h) (delivered s)
          then Some (Exec (pool s ++ [id]) (set_proc (procs s) h (Proc id Finalized Nobody g)) (killq s) (wire s) (table s) (swire s) (pmap s) (signals s) (delivered s) (died s) (panicked s) (down s))
          else None
      | _ => None
      end
  | EGiveUp h =>                   (* executor.go:333-334 *)
      match nth_error (procs s) h with
      | Some (Proc id c (Queueing o) g) =>
          if down s then Some (Exec (pool s) (set_proc (procs s) h (Proc id c Nobody g)) (killq s) (wire s) (table s) (swire s) (pmap s) (signals s) (delivered s) (died s) (panicked s) (down s))
          else None
      | _ => None
      end
  | ESendOp =>                     (* executor.go:220-248 *)
      match killq s with
      | (o, id, h) :: t => if down s then None else Some (Exec (pool s) (procs s) t (wire s ++ [MOp o id h]) (table s) (swire s) (pmap s) (signals s) (delivered s) (died s) (panicked s) (down s))
      | [] => None
      end
  | EExec =>                       (* executor.c:352-413 *)
      if died s then None else
      match wire s with
      | MCreate id h :: t =>
          match table s id with
          | Some _ => Some (Exec (pool s) (procs s) (killq s) t (table s) (swire s) (pmap s) (signals s) (delivered s) true (panicked s) (down s))
          | None => Some (Exec (pool s) (procs s) (killq s) t (upd (table s) id (Some h)) (swire s) (pmap s) (signals s) (delivered s) (died s) (panicked s) (down s))
          end
      | MOp o id h :: t =>
          Some (Exec (pool s) (procs s) (killq s) t (table s) (swire s) (pmap s)
                     (match table s id with Some x => signals s ++ [(o, h, x)] | None => signals s end) (delivered s) (died s) (panicked s) (down s))
      | [] => None
      end
  | EReap id =>                    (* executor.c:493-521 *)
      if died s then None else
      match table s id with
      | Some h => Some (Exec (pool s) (procs s) (killq s) (wire s) (upd (table s) id None) (swire s ++ [(id, h)]) (pmap s) (signals s) (delivered s) (died s) (panicked s) (down s))
      | None => None
      end
  | EReceive =>                    (* executor.go:264-276 *)
      match swire s with
      | (id, h) :: t =>
          match pmap s id with
          | Some x => Some (Exec (pool s) (procs s) (killq s) (wire s) (table s) t (upd (pmap s) id None) (signals s) (delivered s ++ [(h, x)]) (died s) (panicked s) (down s))
          | None => Some (Exec (pool s) (procs s) (killq s) (wire s) (table s) t (pmap s) (signals s) (delivered s) (died s) true (down s))
          end
      | [] => None
      end
  | EStop => Some (Exec (pool s) (procs s) (killq s) (wire s) (table s) (swire s) (pmap s) (signals s) (delivered s) (died s) (panicked s) true)  (* executor.go:184-188, 222-230 *)
  end.
Fixpoint run (s : exec) (es : list event) : option exec :=
  match es with [] => Some s | e :: t => match step s e with Some s' => run s' t | None => None end end.
