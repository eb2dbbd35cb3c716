(* Websocket.v: model of server/web/websocket.go, websocketReadWriter, with a reading and a writing goroutine. *)
From Verif Require Export Base.

(** ** Writing *)

(* The reader's calls *)
Inductive rcall := Rd | Cl.
(* Where the goroutines are.  The Boolean tells if the writer has the lock. *)
Inductive rpc := RIdle | RWant | RHave | RWriting | RStore | RUnlock.
Inductive wpc := WIdle | WWant | WHave (locked : bool) | WWriting (locked : bool) | WUnlock.
(* Messages: the hint, or a Write call's argument *)
Inductive message := Hint | Bin (b : bytes).
(* websocket.go:67-73 websocketReadWriter, and what is going on.  lock: whether writeMu is locked.  attempts: WriteMessage calls
   that have ended, and whether they succeeded.  results: what Write calls have returned. *)
Record ws := Ws {
  w_hint : bool; w_lock : bool; w_err : bool;
  r_pc : rpc; r_todo : list rcall; r_done : list rcall;
  w_pc : wpc; w_todo : list bytes; w_results : list (option nat);
  w_attempts : list (message * bool) }.
Definition ws_init (reads : list rcall) (writes : list bytes) : ws := Ws false false false RIdle reads [] WIdle writes [] [].

(* websocket.go:79-86 Read until it reads frames, :110-119 writeInputHint, :121-130 CloseRead.  ok: result of WriteMessage *)
Definition rstep (ok : bool) (s : ws) : ws :=
  let 'Ws hint lock err rp rt rd wp wt wr at_ := s in
  match rt with
  | [] => s
  | c :: rest =>
      match rp with
      | RIdle => if hint then Ws hint lock err RIdle rest (rd ++ [c]) wp wt wr at_ else Ws hint lock err RWant rt rd wp wt wr at_
      | RWant => if lock then s else Ws hint true err RHave rt rd wp wt wr at_
      | RHave => match c with
                 | Rd => if err then Ws hint lock err RStore rt rd wp wt wr at_ else Ws hint lock err RWriting rt rd wp wt wr at_
                 | Cl => Ws hint lock err RStore rt rd wp wt wr at_
                 end
      | RWriting => Ws hint lock (negb ok) RStore rt rd wp wt wr (at_ ++ [(Hint, ok)])
      | RStore => Ws true lock err RUnlock rt rd wp wt wr at_
      | RUnlock => Ws hint false err RIdle rest (rd ++ [c]) wp wt wr at_
      end
  end.

(* websocket.go:132-147 Write *)
Definition after (locked : bool) : wpc := if locked then WUnlock else WIdle.
Definition wstep (ok : bool) (s : ws) : ws :=
  let 'Ws hint lock err rp rt rd wp wt wr at_ := s in
  match wp with
  | WUnlock => Ws hint false err rp rt rd WIdle wt wr at_
  | _ =>
  match wt with
  | [] => s
  | b :: rest =>
      match wp with
      | WIdle => Ws hint lock err rp rt rd (if hint then WHave false else WWant) wt wr at_
      | WWant => if lock then s else Ws hint true err rp rt rd (WHave true) wt wr at_
      | WHave l => if err then Ws hint lock err rp rt rd (after l) rest (wr ++ [None]) at_
                   else Ws hint lock err rp rt rd (WWriting l) wt wr at_
      | WWriting l => Ws hint lock (err || negb ok) rp rt rd (after l) rest
                         (wr ++ [if ok then Some (length b) else None]) (at_ ++ [(Bin b, ok)])
      | WUnlock => s
      end
  end end.

(* A schedule: which goroutine goes on, and the result of WriteMessage if it ends *)
Inductive turn := Reader (ok : bool) | Writer (ok : bool).
Definition wturn (s : ws) (x : turn) : ws := match x with Reader ok => rstep ok s | Writer ok => wstep ok s end.
Definition wrun (l : list turn) (s : ws) : ws := fold_left wturn l s.

(** ** Reading *)

(* What is left of the frame being read (if any), and the frames to come *)
Record input := Input { in_frame : option bytes; in_frames : list bytes }.
(* Results: data, or the error of NextReader *)
Inductive readres := Data (b : bytes) | NoMore.
(* A frame's Read: more (at least one) bytes if there are, EOF with the last bytes or after them; k and early tell which *)
Definition frame_read (k : nat) (early : bool) (n : nat) (f : bytes) : bytes * bytes * bool :=
  match f with
  | [] => ([], [], true)
  | _ => let m := Nat.min (S k) n in (firstn m f, skipn m f, early && Nat.leb (length f) m)
  end.
(* websocket.go:88-107 Read's loop, for a buffer of n bytes; the oracle tells how frames' Reads behave (by number of the loop) *)
Fixpoint read_frames (o : nat -> nat * bool) (i n : nat) (frames : list bytes) : input * readres :=
  match frames with
  | [] => (Input None [], NoMore)
  | f :: rest =>
      let '(d, f', eof) := frame_read (fst (o i)) (snd (o i)) n f in
      match d with
      | [] => read_frames o (S i) n rest
      | _ => (Input (if eof then None else Some f') rest, Data d)
      end
  end.
(* websocket.go:79-108 Read *)
Definition ws_read (o : nat -> nat * bool) (n : nat) (s : input) : input * readres :=
  match n with
  | O => (s, Data [])
  | _ => read_frames o 0 n (match in_frame s with Some f => f :: in_frames s | None => in_frames s end)
  end.
(* Reads with given buffer sizes *)
Fixpoint ws_reads (os : nat -> nat -> nat * bool) (j : nat) (sizes : list nat) (s : input) : list readres :=
  match sizes with
  | [] => []
  | n :: sizes => let '(s, r) := ws_read (os j) n s in r :: ws_reads os (S j) sizes s
  end.
