(* ReadStream.v: model of packet/packetio/read.go: the reader goroutine
   (Transfer) and the channel side (Subscribe, FinishSubscription,
   StopTransfer) as a micro-step transition system.

   A step is labelled by an event which resolves the nondeterminism: which
   goroutine moves, which select case is taken, what the reader returned.
   Each event's step is between two shared memory accesses, so every
   interleaving of the two goroutines is a list of events.

   Packets are represented by their payload: a packet with payload d is
   packet.MakeData(code, id, len d) filled with d (Packet.v), the EOF packet
   is the one with empty payload. *)
From Verif Require Export StreamState.

(* Program counter of ReadStream.Transfer, packet/packetio/read.go:102-234 *)
Inductive rpc :=
| PTop                (* line 128: loop condition and choice of [sending] *)
| PChk                (* line 142: loads Subscribed *)
| PSelB               (* lines 143-159: blocking select *)
| PSelN               (* lines 165-178: non-blocking select *)
| PRd                 (* lines 180-185: loads Subscribed again *)
| PReading (n : Z)    (* line 188: inside r.Read of an n byte buffer *)
| PFl                 (* line 198: loads Flags *)
| PEnd                (* lines 209-212 *)
| PStop               (* lines 214-233 *)
| PDone               (* returned *)
| PCrash.             (* panicked *)

Inductive rerr := NoErr | EOF | Fail.

Record rst := RS {
  (* shared: State.Flags bit 0, State.Flags's unused high bits, State.Subscribed, State.Data *)
  sub : bool; hi : Z; subscribed : Z; sdata : bytes;
  (* shared: wakeup channel (capacity 1): holds a token, is closed; context cancelled *)
  token : bool; closed : bool; cancelled : bool;
  (* channel side: Subscribe/FinishSubscription has stored but not yet poked *)
  poking : bool;
  (* Transfer's locals: program counter, r != nil, send != nil, done != nil,
     sending != nil, readpos, pkt (None: nil; Some d: packet with payload d),
     err != nil *)
  pc : rpc; r : bool; send : bool; done : bool; sending : bool;
  readpos : Z; pkt : option bytes; rerror : bool;
  (* observation: payloads received by the program side; bytes returned by the
     reader; total flow granted; reader was closed while a data packet was
     pending *)
  out : list bytes; src : bytes; granted : Z; cut : bool }.

Inductive rsev :=
| ESubscribe (inc : Z)      (* Subscribe called: up to the atomic add *)
| EFinish                   (* FinishSubscription called: up to the store *)
| EPoke                     (* the poke at the end of either *)
| EStopTransfer             (* StopTransfer *)
| ECancel                   (* the context is cancelled *)
| ETick                     (* deterministic step of Transfer *)
| EAccept                   (* the program side receives from the send channel *)
| EWake | EDone | EDefault  (* the other select cases *)
| ERead (d : bytes) (e : rerr)  (* r.Read returns *)
| EResume (hasr : bool).    (* after return: marshal, unmarshal, Transfer again with reader or nil *)

(* does the pending packet hold data: len(pkt) > packet.DataHeaderSize *)
Definition has_data (p : option bytes) : bool :=
  match p with Some (_ :: _) => true | _ => false end.

(* State value at rest, from the shared fields (flag bits: state.go:20-24). *)
Definition flags_of (s b w : bool) (h : Z) : Z :=
  8 * h + (if w then 4 else 0) + (if b then 2 else 0) + (if s then 1 else 0).
Definition state_of (s : rst) : State :=
  mkState (flags_of (sub s) (r s) (send s) (hi s)) (subscribed s) (sdata s).

(* Start of Transfer, read.go:103-126, on a State, with wakeup freshly made
   (read.go:33-38).  [hasr]: the caller passed a reader (not nil); [send] is
   assumed non-nil as in all callers.  Ghost fields are passed in. *)
Definition start (x : State) (hasr : bool) (o : list bytes) (sr : bytes) (g : Z) (c : bool) : rst :=
  let r := hasr && has FlagReadWriting (Flags x) in
  let send := has FlagSendReceiving (Flags x) in
  let p := match Data x with [] => None | d => Some d end in
  RS (has FlagSubscribing (Flags x)) (Flags x / 8) (Subscribed x) []
     false false false false
     (if negb send && r then PCrash else PTop) r send true false 0 p false
     o sr g (c || (negb r && has_data p)).

(* The first Transfer of a stream in state [x]. *)
Definition rinit (x : State) (hasr : bool) : rst :=
  start x hasr [] (Data x) (Subscribed x + len (Data x)) false.

(* state.go marshaling into a buffer of the announced size, then unmarshaling *)
Definition resave (x : State) (max : Z) : res State :=
  do n <- MarshaledSize x;
  do ' (w, _) <- Marshal x (repeat 0 (Z.to_nat n));
  do ' (x', _) <- Unmarshal w max;
  Ok x'.

Section Step.
Variable M : Z.   (* config.MaxSendSize *)

Definition set_pc (s : rst) (p : rpc) : rst :=
  RS (sub s) (hi s) (subscribed s) (sdata s) (token s) (closed s) (cancelled s) (poking s)
     p (r s) (send s) (done s) (sending s) (readpos s) (pkt s) (rerror s)
     (out s) (src s) (granted s) (cut s).

(* closeRead (read.go:236-243) followed by done = nil, and err *)
Definition close_read (s : rst) (e : bool) : rst :=
  RS (sub s) (hi s) (subscribed s) (sdata s) (token s) (closed s) (cancelled s) (poking s)
     (pc s) false (send s) false (sending s) (readpos s) (pkt s) e
     (out s) (src s) (granted s) (cut s || (r s && has_data (pkt s))).

Definition take_token (s : rst) : rst :=
  RS (sub s) (hi s) (subscribed s) (sdata s) false (closed s) (cancelled s) (poking s)
     (pc s) (r s) (send s) (done s) (sending s) (readpos s) (pkt s) (rerror s)
     (out s) (src s) (granted s) (cut s).

(* line 161: sending != nil && pkt != nil -> continue; otherwise line 180 *)
Definition after_select (s : rst) : rst :=
  set_pc s (if sending s && match pkt s with None => false | _ => true end then PTop else PRd).

Definition step (s : rst) (e : rsev) : option rst :=
  match e with
  (* read.go:64-76, up to the atomic add.  A wrong argument or a finished
     subscription returns an error without effect.  Must not be called after
     StopTransfer (documented), nor concurrently with itself. *)
  | ESubscribe inc =>
      if poking s || closed s then None
      else if negb (sub s) || (inc <? 0) || (inc >=? 2 ^ 31) then Some s
      else Some (RS (sub s) (hi s) (u32 (subscribed s + inc)) (sdata s) (token s) (closed s) (cancelled s) true
                    (pc s) (r s) (send s) (done s) (sending s) (readpos s) (pkt s) (rerror s)
                    (out s) (src s) (granted s + inc) (cut s))
  (* read.go:79-90, up to the store *)
  | EFinish =>
      if poking s || closed s then None
      else if negb (sub s) then Some s
      else Some (RS false (hi s) (subscribed s) (sdata s) (token s) (closed s) (cancelled s) true
                    (pc s) (r s) (send s) (done s) (sending s) (readpos s) (pkt s) (rerror s)
                    (out s) (src s) (granted s) (cut s))
  (* poke: non-blocking send to the wakeup channel *)
  | EPoke =>
      if poking s
      then Some (RS (sub s) (hi s) (subscribed s) (sdata s) true (closed s) (cancelled s) false
                    (pc s) (r s) (send s) (done s) (sending s) (readpos s) (pkt s) (rerror s)
                    (out s) (src s) (granted s) (cut s))
      else None
  (* read.go:94-96; a second close would panic, callers call it once *)
  | EStopTransfer =>
      if poking s || closed s then None
      else Some (RS (sub s) (hi s) (subscribed s) (sdata s) (token s) true (cancelled s) (poking s)
                    (pc s) (r s) (send s) (done s) (sending s) (readpos s) (pkt s) (rerror s)
                    (out s) (src s) (granted s) (cut s))
  | ECancel =>
      Some (RS (sub s) (hi s) (subscribed s) (sdata s) (token s) (closed s) true (poking s)
               (pc s) (r s) (send s) (done s) (sending s) (readpos s) (pkt s) (rerror s)
               (out s) (src s) (granted s) (cut s))
  | ETick =>
      match pc s with
      | PTop =>   (* lines 128-140 *)
          if send s || sub s then
            let eofmark := send s && negb (has_data (pkt s)) && negb (r s) in
            Some (RS (sub s) (hi s) (subscribed s) (sdata s) (token s) (closed s) (cancelled s) (poking s)
                     PChk (r s) (send s) (done s)
                     (send s && (has_data (pkt s) || negb (r s)))
                     (readpos s)
                     (if eofmark then match pkt s with None => Some [] | p => p end else pkt s)
                     (rerror s) (out s) (src s) (granted s) (cut s))
          else Some (set_pc s PEnd)
      | PChk =>   (* line 142 *)
          Some (set_pc s (if sending s || negb (r s) || (readpos s =? subscribed s) then PSelB else PSelN))
      | PRd =>    (* lines 180-187 *)
          if r s then
            let subs := u32 (subscribed s - readpos s) in
            if subs =? 0 then Some (set_pc s PFl)
            else Some (set_pc s (PReading (if u32 (M - 16) >? subs then subs else M - 16)))
          else Some (set_pc s PTop)
      | PFl =>    (* lines 198-203 *)
          Some (set_pc (if sub s then s else close_read s (rerror s)) PTop)
      | PEnd =>   (* lines 209-212 *)
          Some (set_pc (take_token s) PStop)
      | PStop =>  (* lines 214-233; flags and Subscribed are updated through
                     state_of: bits 1 and 2 are r and send *)
          Some (RS (sub s) (hi s) (u32 (subscribed s - readpos s))
                   (match pkt s with Some (b :: d) => b :: d | _ => sdata s end)
                   (token s) (closed s) (cancelled s) (poking s)
                   PDone (r s) (send s) (done s) false 0 None (rerror s)
                   (out s) (src s) (granted s) (cut s))
      | _ => None
      end
  | EAccept =>   (* lines 144-148 *)
      match pc s with
      | PSelB =>
          if sending s then
            match pkt s with
            | Some d =>
                Some (after_select
                  (RS (sub s) (hi s) (subscribed s) (sdata s) (token s) (closed s) (cancelled s) (poking s)
                      (pc s) (r s) (r s && send s) (done s) (sending s) (readpos s) None (rerror s)
                      (out s ++ [d]) (src s) (granted s) (cut s)))
            | None => Some (set_pc s PCrash)
            end
          else None
      | _ => None
      end
  | EWake =>     (* lines 150-153, 166-169: a buffered token is received before the closure *)
      match pc s with
      | PSelB => if token s then Some (after_select (take_token s))
                 else if closed s then Some (set_pc s PStop) else None
      | PSelN => if token s then Some (set_pc (take_token s) PRd)
                 else if closed s then Some (set_pc s PStop) else None
      | _ => None
      end
  | EDone =>     (* lines 155-158, 171-174 *)
      if done s && cancelled s then
        match pc s with
        | PSelB => Some (after_select (close_read s true))
        | PSelN => Some (set_pc (close_read s true) PRd)
        | _ => None
        end
      else None
  | EDefault =>  (* line 176 *)
      match pc s with
      | PSelN => if token s || closed s || (done s && cancelled s) then None else Some (set_pc s PRd)
      | _ => None
      end
  | ERead d e => (* lines 188-197; io.Reader's contract: at most n bytes *)
      match pc s with
      | PReading n =>
          if len d >? n then None
          else
            let s' := RS (sub s) (hi s) (subscribed s) (sdata s) (token s) (closed s) (cancelled s) (poking s)
                         PTop (r s) (send s) (done s) (sending s) (u32 (readpos s + len d)) (Some d) false
                         (out s) (src s ++ d) (granted s) (cut s) in
            Some (match e with NoErr => s' | EOF => close_read s' false | Fail => close_read s' true end)
      | _ => None
      end
  | EResume hasr =>   (* after both sides have finished with the old stream *)
      if poking s then None else
      match pc s with
      | PDone =>
          match resave (state_of s) M with
          | Ok x => Some (start x hasr (out s) (src s) (granted s) (cut s))
          | _ => Some (set_pc s PCrash)
          end
      | _ => None
      end
  end.

(* A history: every event is enabled when it happens. *)
Fixpoint rrun (s : rst) (es : list rsev) : option rst :=
  match es with
  | [] => Some s
  | e :: t => match step s e with Some s' => rrun s' t | None => None end
  end.
End Step.

(* The bytes the stream holds but has not delivered. *)
Definition pending (s : rst) : bytes := match pkt s with Some d => d | None => [] end ++ sdata s.
