(* Download.v: model of the client's writing of a module into a file (cmd/gate/main/load.go:15-71), as the steps which may fail or be the last
   ones before the process is killed.  The data comes from the server or the daemon (remote.go:487-492, local.go:490-502).
   Simplified: the directory has two interesting entries: the destination and the temporary file, whose name is new (ioutil.TempFile opens with O_EXCL);
   symbolic links and other processes' changes of the directory are left out, and so is the loss of data by a crash of the whole machine (nothing is
   synchronized to disk). *)
From Coq Require Export List NArith Bool PeanoNat.
Export ListNotations.

Definition bytes := list N.
(* A regular file with permission bits, or a device, FIFO, etc. with the bytes which have been written into it *)
Inductive entry := Regular (content : bytes) (mode : N) | Special (written : bytes).
Inductive outcome := Running | Success | Failure.

Inductive stage := Opening | Getting | Making (length : nat) | Copying (got : nat) (length : nat) | Closing | Renaming | Done.
(* temp_: whether the variable temp of the function is true; dest: the file's entry; tmp: the temporary file's entry; out: what has gone to the standard output *)
Record dstate := DState { st : stage; named : bool; temp_ : bool; dest : option entry; tmp : option entry; out : bytes; end_ : outcome }.

(* The environment's choice at a step: whether it succeeds; for getting, the announced length; for copying, the next piece of data (None: end of stream;
   a write error and a read error are the same to checkCopy) *)
Inductive choice := Ok | Fail | Length (n : nat) | Piece (b : bytes) | EndOfStream.

Definition stop (o : outcome) (s : dstate) : dstate := DState Done (named s) (temp_ s) (dest s) (tmp s) (out s) o.
Definition go (x : stage) (s : dstate) : dstate := DState x (named s) (temp_ s) (dest s) (tmp s) (out s) (end_ s).
Definition write (b : bytes) (e : option entry) : option entry :=
  match e with Some (Regular c m) => Some (Regular (c ++ b) m) | Some (Special w) => Some (Special (w ++ b)) | None => None end.

Definition dstep (c : choice) (s : dstate) : option dstate :=
  match st s, c with
  | Opening, Ok =>                                                        (* load.go:22-43; that there is no such file is fine *)
      if named s then
        match dest s with
        | Some (Regular _ _) | None => Some (DState Getting true true (dest s) (tmp s) (out s) Running)
        | Some (Special _) => Some (go Getting s)
        end
      else Some (go Getting s)
  | Opening, Fail => if named s then Some (stop Failure s) else None      (* 29, 40: log.Fatal exits at once *)
  | Getting, Length n => Some (go (if temp_ s then Making n else Copying 0 n) s)      (* 45 *)
  | Getting, Fail => Some (stop Failure s)                                (* check in get *)
  | Making n, Ok => Some (DState (Copying 0 n) (named s) true (dest s) (Some (Regular [] 384)) (out s) Running)   (* 47-55; the mode is 0600 *)
  | Making _, Fail => Some (stop Failure s)                               (* 49 *)
  | Copying got n, Piece b =>                                             (* 57; remote.go:731-735; io.Copy *)
      let s' := if temp_ s then DState (st s) true true (dest s) (write b (tmp s)) (out s) Running
                else if named s then DState (st s) true false (write b (dest s)) (tmp s) (out s) Running
                else DState (st s) false false (dest s) (tmp s) (out s ++ b) Running in
      Some (go (Copying (got + length b) n) s')
  | Copying got n, EndOfStream => Some (if got =? n then go Closing s else stop Failure s)   (* 57-59 *)
  | Copying _ _, Fail => Some (stop Failure s)                            (* check in checkCopy *)
  | Closing, Ok => Some (if temp_ s then go Renaming s else stop Success s)  (* 60-62, clientcmd.go:242 *)
  | Closing, Fail => Some (stop Failure s)
  | Renaming, Ok => Some (DState Done (named s) (temp_ s) (tmp s) None (out s) Success)      (* 63-65 *)
  | Renaming, Fail => Some (stop Failure s)
  | _, _ => None
  end%nat.
Fixpoint drun (l : list choice) (s : dstate) : option dstate :=
  match l with [] => Some s | c :: t => match dstep c s with Some s' => drun t s' | None => None end end.
(* The start; None: to the standard output *)
Definition dstart (named : bool) (old : option entry) : dstate := DState Opening named false old None [] Running.
(* The data which the stream gave *)
Definition data (l : list choice) : bytes := flat_map (fun c => match c with Piece b => b | _ => [] end) l.
