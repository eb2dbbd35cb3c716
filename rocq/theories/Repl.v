(* Repl.v: model of cmd/gate/main/repl.go, the line-oriented text UI of an instance, over pipes and websockets.
   Simplified: printing (readline) doesn't fail; a message's contents are given as the pieces which the websocket library's reader returns one by one
   (none is empty, and io.EOF comes after the last one). *)
From Verif Require Export Base.

(* What comes over the connection: text messages (also others that aren't binary) and binary ones.  Afterwards the websocket library gives an error. *)
Inductive frame := Text | Binary (pieces : list bytes).
(* What a Read call returns: bytes, io.EOF, or another error *)
Inductive reading := Bytes (b : bytes) | Eof | Error.
(* repl.go:65-68 websocketConn: the reader of the current message, and what will come *)
Record conn := Conn { c_r : option (list bytes); c_frames : list frame }.
(* repl.go:71-80: NextReader until there's a binary message *)
Fixpoint next_reader (l : list frame) : option (list bytes) * list frame :=
  match l with [] => (None, []) | Text :: t => next_reader t | Binary p :: t => (Some p, t) end.
(* repl.go:70-91 websocketConn.Read *)
Definition read (c : conn) : reading * conn :=
  let '(r, l) := match c_r c with Some p => (Some p, c_frames c) | None => next_reader (c_frames c) end in
  match r with
  | None => (Error, Conn None l)                         (* 74-76 *)
  | Some [] => (Eof, Conn None l)                        (* 82-88: the message's end is returned as io.EOF *)
  | Some (b :: p) => (Bytes b, Conn (Some p) l)          (* 86-88 *)
  end.
(* repl.go:29-46: the reading goroutine; printed: what is written to the terminal.  fuel: how many Read calls. *)
Fixpoint print_loop (fuel : nat) (c : conn) (printed : bytes) : bytes * option reading :=
  match fuel with
  | O => (printed, None)
  | S n => match read c with
           | (Bytes b, c') => print_loop n c' (printed ++ b)
           | (e, _) => (printed, Some e)
           end
  end.
(* The same over a pipe (local.go:362-380): what the reads give before the end of file *)
Definition print_pipe (chunks : list bytes) : bytes := concat chunks.

(* ---- Typing ---- *)
(* repl.go:48: "\r\r\r\r\r\r\r\n" *)
Definition greeting : bytes := [13;13;13;13;13;13;13;10].
Inductive event := Sent (b : bytes) | WaitOutput | CloseInput | Exit1.
(* repl.go:50-63.  ok: whether the i-th write succeeds; what has been typed, until the end of input (io.EOF); afterwards the output is waited for *)
Fixpoint typing (ok : nat -> bool) (i : nat) (outbuf : bytes) (lines : list bytes) : list event :=
  if ok i then
    Sent outbuf :: match lines with
                   | [] => [WaitOutput]
                   | line :: t => typing ok (S i) (line ++ [10]) t
                   end
  else [Exit1].
(* local.go:379-381, repl.go:105-111: the input is closed when repl returns.  output_ended: whether the reading goroutine has ended, without an error or not *)
Definition session (ok : nat -> bool) (lines : list bytes) (output_ended : option bool) : list event :=
  let l := typing ok 0 greeting lines in
  match last l WaitOutput, output_ended with
  | WaitOutput, Some true => l ++ [CloseInput]
  | WaitOutput, Some false => l ++ [Exit1]               (* 65: check *)
  | _, _ => l
  end.
