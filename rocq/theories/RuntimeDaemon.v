(* RuntimeDaemon.v: model of the runtime daemon: cmd/gate-runtime/main/runtimecmd.go:35-165 (the socket it listens on, and its clients' containers), with the
   descriptors of internal/container/parent.go:28-118 Start.
   Simplified: os/exec's pipe for standard input appears as its write end (the read end is closed by Start); the configuration of the container's process
   (ContainerStart.v) is one step; descriptors are created close-on-exec (Go's os and net packages), so that only the listed files reach a container. *)
From Coq Require Export List Arith Bool.
Export ListNotations.

(* What a client's goroutine opens in the daemon *)
Inductive file := Conn | ConnFile | ExecutorBin | LoaderBin | CgroupDir | Stdin.
Inductive event := Open (f : file) | Close (f : file).
(* PFile: conn.File; PCloseConn; POpen k: the files opened by Start; PSpawn; PConf; PCloseFile; PWait: container.Wait; PFailed: the deferred connFile.Close;
   PFailedConn: the deferred conn.Close *)
Inductive pc := PFile | PCloseConn | POpen (k : nat) | PSpawn | PConf | PCloseFile | PWait | PFailed | PFailedConn | PEnd.
(* The container's process *)
Inductive child := NoChild | Alive | Zombie | Reaped.
Record client := Client { c_pc : pc; c_log : list event; c_child : child }.
(* runtimecmd.go:113-118: the connection has been accepted *)
Definition accepted : client := Client PFile [Open Conn] NoChild.

(* parent.go:29-45, 74: in this order *)
Definition start_files : list file := [ExecutorBin; LoaderBin; CgroupDir; Stdin].
(* the deferred functions of Start, in reverse order; the last one (the pipe) is closed before them if the container is configured (107-111) *)
Definition unwind (k : nat) : list event := map Close (rev (firstn k start_files)).

(* runtimecmd.go:127-165 handle.  ok: whether the operation succeeds *)
Definition hstep (ok : bool) (c : client) : option client :=
  let '(Client p l ch) := c in
  match p with
  | PFile => Some (if ok then Client PCloseConn (l ++ [Open ConnFile]) ch else Client PFailedConn l ch)                    (* 136-140 *)
  | PCloseConn => Some (Client (POpen 0) (l ++ [Close Conn]) ch)                                                           (* 147-148 *)
  | POpen k => match nth_error start_files k with                                                                          (* 150; parent.go:29-80 *)
               | Some f => Some (if ok then Client (POpen (S k)) (l ++ [Open f]) ch else Client PFailed (l ++ unwind k) ch)
               | None => Some (Client PSpawn l ch)
               end
  | PSpawn => Some (if ok then Client PConf l Alive else Client PFailed (l ++ unwind 4) ch)                                (* parent.go:84-86 *)
  | PConf => Some (if ok then Client PCloseFile (l ++ unwind 4) ch                                                         (* 95-118 *)
                   else Client PFailed (l ++ unwind 4) Reaped)                                                             (* 87-92: Kill, Wait *)
  | PCloseFile => Some (Client PWait (l ++ [Close ConnFile]) ch)                                                           (* 156-157 *)
  | PWait => match ch with Zombie => Some (Client PEnd l Reaped) | _ => None end                                           (* 159 *)
  | PFailed => Some (Client PEnd (l ++ [Close ConnFile]) ch)                                                               (* 141-145 *)
  | PFailedConn => Some (Client PEnd (l ++ [Close Conn]) ch)                                                               (* 128-132 *)
  | PEnd => None
  end.

(* The daemon: its clients; a step is the arrival of a client, a step of a client's goroutine, or the exit of a client's container *)
Inductive step_ := Accept | Handle (i : nat) (ok : bool) | Exit (i : nat).
Fixpoint upd (l : list client) (i : nat) (c : client) : list client :=
  match l, i with [], _ => [] | _ :: t, O => c :: t | x :: t, S k => x :: upd t k c end.
Definition dstep (l : list client) (x : step_) : list client :=
  match x with
  | Accept => l ++ [accepted]
  | Handle i ok => match nth_error l i with
                   | Some c => match hstep ok c with Some c' => upd l i c' | None => l end
                   | None => l
                   end
  | Exit i => match nth_error l i with
              | Some (Client p g Alive) => upd l i (Client p g Zombie)
              | _ => l
              end
  end.
Definition drun (x : list step_) : list client := fold_left dstep x [].

(* ---- The socket ---- *)
(* What there is at the path of the setting *)
Inductive node := Absent | Socket | OtherFile.
Inductive listening := Activated (k : nat) | Bound | Exits.
(* runtimecmd.go:78-109.  count: sockets from systemd; setting: runtime.daemonsocket isn't empty; removable: os.Remove succeeds.  Also what is at the path
   afterwards; binding fails if there is something.  (Other failures of resolving and listening are left out.) *)
Definition listen (count : nat) (setting : bool) (at_ : node) (removable : bool) : listening * node :=
  if (count =? 0) && setting then
    let at_ := match at_ with Socket => if removable then Absent else Socket | x => x end in
    match at_ with Absent => (Bound, Socket) | x => (Exits, x) end
  else if (count =? 1) && negb setting then (Activated 0, at_)
  else (Exits, at_).
