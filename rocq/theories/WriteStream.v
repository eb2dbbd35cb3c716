(* WriteStream.v: model of packet/packetio/write.go: the writer goroutine
   (Transfer) and the channel side (Write, CloseWrite, StopTransfer) as a
   micro-step transition system over the circular buffer.  Each event's step is
   between two shared memory accesses, so every interleaving is a list of
   events. *)
From Verif Require Export StreamState.

(* Program counter of WriteStream.Transfer, write.go:125-273 *)
Inductive wpc :=
| WTop                    (* lines 146-165 *)
| WChk                    (* line 167: loads produced *)
| WSelB                   (* lines 168-185: blocking select *)
| WSelN                   (* lines 187-206: non-blocking select *)
| WRd                     (* lines 209-217: loads produced again *)
| WWriting (lo hi : Z)    (* line 221: inside w.Write(Data[lo:hi]) *)
| WFl                     (* line 231: loads Flags *)
| WEnd                    (* lines 241-244 *)
| WStop                   (* lines 246-272 *)
| WDone                   (* returned *)
| WError                  (* returned early, line 143 *)
| WCrash.

(* The channel side: idle, or inside Write/CloseWrite. *)
Inductive cpc :=
| CIdle
| CCopy (d : bytes)       (* Write passed the check at line 90 *)
| CAdd (n : Z)            (* Write copied, lines 95-99 *)
| CPoke.                  (* before poke, lines 102, 113 *)

Inductive werr := WNoErr | WEOF | WFail.

Record wst := WS {
  (* capacity of State.Data; content of State.Data[:cap] *)
  size : Z; buf : bytes;
  (* shared: Flags bit SendReceiving; produced; consumed; State.Subscribed *)
  rcv : bool; produced : Z; consumed : Z; wsub : Z;
  token : bool; closed : bool; cancelled : bool;
  chan : cpc;
  (* Transfer's locals: w != nil, send != nil, done != nil, sending != nil,
     increment, consumed (masked), err != nil *)
  pc : wpc; w : bool; send : bool; done : bool; sending : bool; increment : Z; cons : Z; werror : bool;
  (* final State.Data: [fdata] followed by [fpad] zero bytes *)
  fdata : bytes; fpad : Z;
  (* observation: bytes accepted from the program; bytes taken by the writer;
     increments of the flow packets received by the program; no accepted write
     has exceeded the flow granted *)
  acc : bytes; out : bytes; flows : list Z; honest : bool }.

Inductive wev :=
| EWrite (d : bytes)      (* Write called: through the check at line 90 *)
| ECopy | EAdd | EPoke    (* its remaining steps *)
| ECloseWrite             (* CloseWrite called: up to the store *)
| EStopTransfer | ECancel
| ETick
| EAccept | EWake | EDone | EDefault
| EWritten (n : Z) (e : werr).   (* w.Write returns *)

(* x & mask with mask = uint32(size) - 1 (uint32 arithmetic) *)
Definition masked (size x : Z) : Z := Z.land x (u32 (u32 size - 1)).

(* copy(s.State.Data[off:size], data): what fits before the end *)
Definition copy_ring (size off : Z) (d b : bytes) : bytes :=
  let n := Z.to_nat (Z.min (size - off) (len d)) in
  firstn (Z.to_nat off) b ++ firstn n d ++ skipn (Z.to_nat off + n) b.

(* lines 95-99: the two copies *)
Definition write_ring (size off : Z) (d b : bytes) : bytes :=
  let n := Z.min (size - off) (len d) in
  let b := copy_ring size off d b in
  let tail := skipn (Z.to_nat n) d in
  match tail with [] => b | _ => copy_ring size 0 tail b end.

(* Go's b[lo:hi] *)
Definition sub_slice (lo hi : Z) (b : bytes) : bytes := firstn (Z.to_nat (hi - lo)) (skipn (Z.to_nat lo) b).

(* total flow granted to the program *)
Definition granted (s : wst) : Z := fold_right Z.add 0 (flows s).

(* write.go:34-47 and the start of Transfer, lines 126-144, of a stream in state
   [x] whose Data has capacity [cap] and content [b]; [hasw]: writer not nil.
   Transfer is called with a non-nil send. *)
Definition wstart (x : State) (cap : Z) (b : bytes) (hasw : bool) : wst :=
  WS cap b (has FlagSendReceiving (Flags x)) 0 0 (Subscribed x)
     false false false CIdle
     (if Subscribed x >=? u32 cap then WError else WTop)
     (hasw && has FlagReadWriting (Flags x)) (has FlagSubscribing (Flags x)) true false 0 0
     (Subscribed x >=? u32 cap) (Data x) 0 [] [] [] true.

(* A new stream with a buffer of the given size (MakeWriteStream, which panics
   unless the size is a power of two). *)
Definition winit (sz : Z) (hasw : bool) : wst :=
  wstart InitialState sz (repeat 0 (Z.to_nat sz)) hasw.

(* A stream restored by Unmarshal (state.go:86-90): Data is a slice of the
   snapshot with capacity equal to its length; produced and consumed are those
   of the newly made WriteStream, zero. *)
Definition wrestore (x : State) (hasw : bool) : wst := wstart x (len (Data x)) (Data x) hasw.

Definition set_pc (s : wst) (p : wpc) : wst :=
  WS (size s) (buf s) (rcv s) (produced s) (consumed s) (wsub s) (token s) (closed s) (cancelled s) (chan s)
     p (w s) (send s) (done s) (sending s) (increment s) (cons s) (werror s) (fdata s) (fpad s)
     (acc s) (out s) (flows s) (honest s).

Definition set_chan (s : wst) (c : cpc) : wst :=
  WS (size s) (buf s) (rcv s) (produced s) (consumed s) (wsub s) (token s) (closed s) (cancelled s) c
     (pc s) (w s) (send s) (done s) (sending s) (increment s) (cons s) (werror s) (fdata s) (fpad s)
     (acc s) (out s) (flows s) (honest s).

Definition take_token (s : wst) : wst :=
  WS (size s) (buf s) (rcv s) (produced s) (consumed s) (wsub s) false (closed s) (cancelled s) (chan s)
     (pc s) (w s) (send s) (done s) (sending s) (increment s) (cons s) (werror s) (fdata s) (fpad s)
     (acc s) (out s) (flows s) (honest s).

(* closeWrite (write.go:275-282), done = nil, err *)
Definition close_write (s : wst) (e : bool) : wst :=
  WS (size s) (buf s) (rcv s) (produced s) (consumed s) (wsub s) (token s) (closed s) (cancelled s) (chan s)
     (pc s) false (send s) false (sending s) (increment s) (cons s) e (fdata s) (fpad s)
     (acc s) (out s) (flows s) (honest s).

(* write.go:89-90: is the write within the buffer's free space? *)
Definition write_fits (s : wst) (d : bytes) : bool :=
  negb (u32 (produced s - consumed s) + len d >=? size s).

Definition step (s : wst) (e : wev) : option wst :=
  match e with
  (* write.go:78-93.  A rejected write returns an error without effect.  Must
     not be called after StopTransfer nor concurrently with itself. *)
  | EWrite d =>
      match chan s with
      | CIdle =>
          if closed s then None
          else if negb (rcv s) then Some s
          else if negb (write_fits s d) then Some s
          else Some (WS (size s) (buf s) (rcv s) (produced s) (consumed s) (wsub s) (token s) (closed s) (cancelled s) (CCopy d)
                        (pc s) (w s) (send s) (done s) (sending s) (increment s) (cons s) (werror s) (fdata s) (fpad s)
                        (acc s) (out s) (flows s) (honest s && (len (acc s) + len d <=? granted s)))
      | _ => None
      end
  | ECopy =>       (* write.go:95-99 *)
      match chan s with
      | CCopy d =>
          Some (WS (size s) (write_ring (size s) (masked (size s) (produced s)) d (buf s))
                   (rcv s) (produced s) (consumed s) (wsub s) (token s) (closed s) (cancelled s) (CAdd (len d))
                   (pc s) (w s) (send s) (done s) (sending s) (increment s) (cons s) (werror s) (fdata s) (fpad s)
                   (acc s ++ d) (out s) (flows s) (honest s))
      | _ => None
      end
  | EAdd =>        (* write.go:101 *)
      match chan s with
      | CAdd n =>
          Some (WS (size s) (buf s) (rcv s) (u32 (produced s + n)) (consumed s) (wsub s) (token s) (closed s) (cancelled s) CPoke
                   (pc s) (w s) (send s) (done s) (sending s) (increment s) (cons s) (werror s) (fdata s) (fpad s)
                   (acc s) (out s) (flows s) (honest s))
      | _ => None
      end
  | EPoke =>       (* write.go:102, 113 *)
      match chan s with
      | CPoke =>
          Some (WS (size s) (buf s) (rcv s) (produced s) (consumed s) (wsub s) true (closed s) (cancelled s) CIdle
                   (pc s) (w s) (send s) (done s) (sending s) (increment s) (cons s) (werror s) (fdata s) (fpad s)
                   (acc s) (out s) (flows s) (honest s))
      | _ => None
      end
  | ECloseWrite => (* write.go:107-112 *)
      match chan s with
      | CIdle =>
          if closed s then None
          else if negb (rcv s) then Some s
          else Some (WS (size s) (buf s) false (produced s) (consumed s) (wsub s) (token s) (closed s) (cancelled s) CPoke
                        (pc s) (w s) (send s) (done s) (sending s) (increment s) (cons s) (werror s) (fdata s) (fpad s)
                        (acc s) (out s) (flows s) (honest s))
      | _ => None
      end
  | EStopTransfer =>   (* write.go:118-120 *)
      match chan s with
      | CIdle =>
          if closed s then None
          else Some (WS (size s) (buf s) (rcv s) (produced s) (consumed s) (wsub s) (token s) true (cancelled s) (chan s)
                        (pc s) (w s) (send s) (done s) (sending s) (increment s) (cons s) (werror s) (fdata s) (fpad s)
                        (acc s) (out s) (flows s) (honest s))
      | _ => None
      end
  | ECancel =>
      Some (WS (size s) (buf s) (rcv s) (produced s) (consumed s) (wsub s) (token s) (closed s) true (chan s)
               (pc s) (w s) (send s) (done s) (sending s) (increment s) (cons s) (werror s) (fdata s) (fpad s)
               (acc s) (out s) (flows s) (honest s))
  | ETick =>
      match pc s with
      | WTop =>    (* lines 146-165 *)
          if send s || rcv s then
            let inc := if send s && w s then s32 (s32 (u32 (u32 (size s) - wsub s)) - 1) else 0 in
            Some (WS (size s) (buf s) (rcv s) (produced s) (consumed s) (wsub s) (token s) (closed s) (cancelled s) (chan s)
                     WChk (w s) (send s) (done s)
                     (send s && (negb (w s) || (inc >? 0))) inc (masked (size s) (consumed s))
                     (werror s) (fdata s) (fpad s) (acc s) (out s) (flows s) (honest s))
          else Some (set_pc s WEnd)
      | WChk =>    (* line 167 *)
          Some (set_pc s (if negb (w s) || (cons s =? masked (size s) (produced s)) then WSelB else WSelN))
      | WRd =>     (* lines 209-217 *)
          if w s then
            let p := masked (size s) (produced s) in
            if cons s =? p then Some (set_pc s WFl)
            else Some (set_pc s (WWriting (cons s) (if cons s <? p then p else size s)))
          else Some (set_pc s WTop)
      | WFl =>     (* lines 231-236 *)
          Some (set_pc (if rcv s then s else close_write s (werror s)) WTop)
      | WEnd =>    (* lines 241-244 *)
          Some (set_pc (take_token s) WStop)
      | WStop =>   (* lines 246-272.  make([]byte, produced-consumed) in uint32
                      arithmetic: in the wrapped case its length is
                      2^32 - (consumed - produced), of which size - consumed +
                      produced bytes are then filled by the two copies *)
          let c := masked (size s) (consumed s) in
          let p := masked (size s) (produced s) in
          let '(d, pad) :=
            if c =? p then ([], 0)
            else if c <? p then (sub_slice c p (buf s), 0)
            else (sub_slice c (size s) (buf s) ++ sub_slice 0 p (buf s),
                  u32 (p - c) - (size s - c + p)) in
          Some (WS (size s) (buf s) (rcv s) (produced s) (consumed s) (wsub s) (token s) (closed s) (cancelled s) (chan s)
                   WDone (w s) (send s) (done s) false 0 0 (werror s) d pad
                   (acc s) (out s) (flows s) (honest s))
      | _ => None
      end
  | EAccept =>     (* lines 169-174, 188-193 *)
      match pc s with
      | WSelB | WSelN =>
          if sending s then
            Some (WS (size s) (buf s) (rcv s) (produced s) (consumed s) (u32 (wsub s + increment s)) (token s) (closed s) (cancelled s) (chan s)
                     WRd (w s) (w s && send s) (done s) (sending s) (increment s) (cons s) (werror s) (fdata s) (fpad s)
                     (acc s) (out s) (flows s ++ [increment s]) (honest s))
          else None
      | _ => None
      end
  | EWake =>       (* lines 176-179, 195-198 *)
      match pc s with
      | WSelB | WSelN =>
          if token s then Some (set_pc (take_token s) WRd)
          else if closed s then Some (set_pc s WStop) else None
      | _ => None
      end
  | EDone =>       (* lines 181-184, 200-203 *)
      if done s && cancelled s then
        match pc s with
        | WSelB | WSelN => Some (set_pc (close_write s true) WRd)
        | _ => None
        end
      else None
  | EDefault =>    (* line 205: only if no other case is ready; whether the
                      program side is ready to receive is not known here *)
      match pc s with
      | WSelN => if token s || closed s || (done s && cancelled s) then None else Some (set_pc s WRd)
      | _ => None
      end
  | EWritten n e => (* lines 221-230; io.Writer's contract: 0 <= n <= len(b),
                       and n < len(b) only with an error *)
      match pc s with
      | WWriting lo hi =>
          if (n <? 0) || (n >? hi - lo) || ((n <? hi - lo) && match e with WNoErr => true | _ => false end) then None
          else
            let s' := WS (size s) (buf s) (rcv s) (produced s) (u32 (consumed s + n)) (u32 (wsub s - n)) (token s) (closed s) (cancelled s) (chan s)
                         WTop (w s) (send s) (done s) (sending s) (increment s) (cons s) false (fdata s) (fpad s)
                         (acc s) (out s ++ firstn (Z.to_nat n) (sub_slice lo hi (buf s))) (flows s) (honest s) in
            Some (match e with WNoErr => s' | WEOF => close_write s' false | WFail => close_write s' true end)
      | _ => None
      end
  end.

Fixpoint wrun (s : wst) (es : list wev) : option wst :=
  match es with
  | [] => Some s
  | e :: t => match step s e with Some s' => wrun s' t | None => None end
  end.

(* The State that is marshaled after Transfer has returned (write.go:247-255
   and 257-270), without the [fpad s] zero bytes at the end of Data, for streams
   whose Flags have no other bits. *)
Definition wstate_of (s : wst) : State :=
  mkState ((if rcv s then 4 else 0) + (if w s then 2 else 0) + (if send s then 1 else 0)) (wsub s) (fdata s).
