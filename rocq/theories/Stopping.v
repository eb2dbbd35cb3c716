(* Stopping.v: model of how the server program and the daemon stop (cmd/gate-server/main/servercmd.go:242, 432-510; cmd/gate-daemon/main/daemoncmd.go:93-249;
   server/server.go:151-200 Shutdown), as interleavings of the main goroutine, the goroutine that watches the executors, the connections and
   the instances.
   Simplified: no instances or connections are created while the program stops; an instance that has stopped has been stored (see Lifecycle.v); the
   anonymous instances are like the others (killed instead of suspended). *)
From Coq Require Export List Arith Bool.
Export ListNotations.

Inductive inst := Running | Suspending | Stopped.
Definition suspend (i : inst) : inst := match i with Running => Suspending | _ => i end.
Definition stopped (i : inst) : bool := match i with Stopped => true | _ => false end.
Definition stop_nth (k : nat) (l : list inst) : list inst := firstn k l ++ match skipn k l with [] => [] | _ :: t => Stopped :: t end.

(* Server.Shutdown, server.go:151-200: suspends all, and then waits for each in turn, until the context is done.  SAwait k: has waited for k instances. *)
Inductive shutdown := SBegin | SAwait (k : nat) | SEnd.
Definition shutdown_step (cancelled : bool) (p : shutdown) (l : list inst) : option (shutdown * list inst) :=
  match p with
  | SBegin => Some (SAwait 0, map suspend l)
  | SAwait k => match nth_error l k with
                | None => Some (SEnd, l)
                | Some i => if stopped i || cancelled then Some (SAwait (S k), l) else None
                end
  | SEnd => None
  end.

(* ---- The server program ---- *)
(* The watcher, servercmd.go:434-463: waits for an executor's death; has told systemd and begins to shut the HTTP server down; waits for the
   connections; shuts the server down.  The main goroutine: httpServer.Serve; the deferred functions and critLog.Fatal; exited. *)
Inductive watcher := WWait | WHttp | WConns | WServer (p : shutdown).
Inductive main_ := MServe | MReturn | MExited.
Record world := World { dead : bool; http_closed : bool; conns : nat; insts : list inst; timeout : bool; w_pc : watcher; m_pc : main_ }.
Inductive event := Die | Watch | Main | ConnEnd | Stop (k : nat) | Timeout.

(* waits: whether the main goroutine waits for the watcher after Serve has returned; the program doesn't. *)
Definition step (waits : bool) (s : world) (e : event) : option world :=
  match m_pc s with
  | MExited => None
  | _ =>
    match e with
    | Die => Some (World true (http_closed s) (conns s) (insts s) (timeout s) (w_pc s) (m_pc s))
    | ConnEnd => match conns s with S n => Some (World (dead s) (http_closed s) n (insts s) (timeout s) (w_pc s) (m_pc s)) | O => None end
    | Stop k => Some (World (dead s) (http_closed s) (conns s) (stop_nth k (insts s)) (timeout s) (w_pc s) (m_pc s))
    | Timeout => match w_pc s with   (* 15 seconds after the shutdown's beginning *)
                 | WWait => None
                 | _ => Some (World (dead s) (http_closed s) (conns s) (insts s) true (w_pc s) (m_pc s))
                 end
    | Watch =>
        match w_pc s with
        | WWait => if dead s then Some (World true (http_closed s) (conns s) (insts s) (timeout s) WHttp (m_pc s)) else None   (* 438-451 *)
        | WHttp => Some (World (dead s) true (conns s) (insts s) (timeout s) WConns (m_pc s))                                  (* 456: closes the listeners first *)
        | WConns => if timeout s then Some (World (dead s) true (conns s) (insts s) true WConns MExited)                       (* 457: Fatalf *)
                    else if conns s =? 0 then Some (World (dead s) true (conns s) (insts s) false (WServer SBegin) (m_pc s)) else None
        | WServer p => match shutdown_step (timeout s) p (insts s) with                                                        (* 460; the Fatalf in 461 is left out *)
                       | Some (p', l) => Some (World (dead s) (http_closed s) (conns s) l (timeout s) (WServer p') (m_pc s))
                       | None => None
                       end
        end
    | Main =>
        match m_pc s with
        | MServe => if http_closed s then Some (World (dead s) (http_closed s) (conns s) (insts s) (timeout s) (w_pc s) MReturn) else None  (* 510: Serve returns
                      immediately with ErrServerClosed after the call of Shutdown (net/http) *)
        | _ => if negb waits || match w_pc s with WServer SEnd => true | _ => false end
               then Some (World (dead s) (http_closed s) (conns s) (insts s) (timeout s) (w_pc s) MExited) else None              (* 242: critLog.Fatal(main2(critLog)) *)
        end
    end
  end.
Fixpoint run (waits : bool) (l : list event) (s : world) : option world :=
  match l with [] => Some s | e :: t => match step waits s e with Some s' => run waits t s' | None => None end end.
Definition start (conns : nat) (l : list inst) : world := World false false conns l false WWait MServe.

(* ---- The daemon ---- *)
(* The main goroutine: waits for a signal or for the HTTP server's failure (daemoncmd.go:241-245); the deferred Server.Shutdown (:196); exited.
   lost: the context is the one of the connection to the message bus (:168, 196) *)
Inductive dmain := DSelect | DShutdown (p : shutdown) | DExited.
Record dworld := DWorld { d_insts : list inst; lost : bool; d_pc : dmain }.
Inductive devent := DTerminate | DMain | DStop (k : nat) | DBusLost.
Definition dstep (s : dworld) (e : devent) : option dworld :=
  match d_pc s, e with
  | DExited, _ => None
  | DSelect, DTerminate => Some (DWorld (d_insts s) (lost s) (DShutdown SBegin))
  | _, DStop k => Some (DWorld (stop_nth k (d_insts s)) (lost s) (d_pc s))
  | _, DBusLost => Some (DWorld (d_insts s) true (d_pc s))
  | DShutdown SEnd, DMain => Some (DWorld (d_insts s) (lost s) DExited)
  | DShutdown p, DMain => match shutdown_step (lost s) p (d_insts s) with Some (p', l) => Some (DWorld l (lost s) (DShutdown p')) | None => None end
  | _, _ => None
  end.
Fixpoint drun (l : list devent) (s : dworld) : option dworld :=
  match l with [] => Some s | e :: t => match dstep s e with Some s' => drun t s' | None => None end end.
Definition dstart (l : list inst) : dworld := DWorld l false DSelect.
