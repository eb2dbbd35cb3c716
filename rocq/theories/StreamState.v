(* StreamState.v: model of packet/packetio/state.go (State and its
   serialization) and of packet/packetio/stream.go's Unmarshal/Marshal. *)
From Verif Require Export Varint.

(* packet/packetio/state.go:20-24 *)
Definition FlagSubscribing := 1.
Definition FlagReadWriting := 2.
Definition FlagSendReceiving := 4.

(* Bit test Flags&flag != 0 for the three single-bit flags. *)
Definition has (flag flags : Z) : bool := Z.odd (flags / flag).

(* packet/packetio/state.go:29-33.  Data is a Go slice; only its contents
   matter for serialization (the capacity is modelled in WriteStream.v). *)
Record State := mkState { Flags : Z; Subscribed : Z; Data : bytes }.

(* packet/packetio/state.go:35-44 *)
Definition InitialState : State := mkState 7 0 [].

(* packet/packetio/state.go:47-49 *)
Definition Live (s : State) : bool :=
  has FlagSubscribing (Flags s) || has FlagReadWriting (Flags s) || has FlagSendReceiving (Flags s).

(* packet/packetio/state.go:58-106.  The Go method returns (src, err) and has
   filled the receiver partially on error; here an error has no state.
   Line 89's else branch is dead: *s = State{} made s.Data nil. *)
Definition Unmarshal (src : bytes) (maxDataSize : Z) : res (State * bytes) :=
  do ' (flags, src) <- Scan src;
  do ' (subscribed, src) <- Scan src;
  do ' (size, src) <- Scan src;
  if size >? maxDataSize then Err
  else if len src <? size then Err
  else
    let data := firstn (Z.to_nat size) src in
    let src := skipn (Z.to_nat size) src in
    if negb (has FlagSendReceiving flags) && (has FlagReadWriting flags || negb (size =? 0))
    then Err
    else Ok (mkState (u32 flags) (u32 subscribed) data, src).

(* packet/packetio/state.go:109-115 *)
Definition MarshaledSize (s : State) : res Z :=
  do a <- Len (s32 (Flags s));
  do b <- Len (s32 (Subscribed s));
  do c <- Len (s32 (len (Data s)));
  Ok (a + b + c + len (Data s)).

(* packet/packetio/state.go:119-125.  Returns the written part of dest and the
   unused tail.  copy() copies what fits; dest[len(s.Data):] panics if dest is
   shorter. *)
Definition Marshal (s : State) (dest : bytes) : res (bytes * bytes) :=
  do ' (w1, dest) <- Put dest (s32 (Flags s));
  do ' (w2, dest) <- Put dest (s32 (Subscribed s));
  do ' (w3, dest) <- Put dest (s32 (len (Data s)));
  if len dest <? len (Data s) then Panic
  else Ok (w1 ++ w2 ++ w3 ++ Data s, skipn (length (Data s)) dest).

(* packet/packetio/stream.go:51-58 (Stream.Unmarshal): read half limited by
   MaxSendSize, write half by the write buffer size. *)
Definition StreamUnmarshal (src : bytes) (maxSendSize wbuf : Z) : res (State * State * bytes) :=
  do ' (r, src) <- Unmarshal src maxSendSize;
  do ' (w, src) <- Unmarshal src wbuf;
  Ok (r, w, src).

(* packet/packetio/stream.go:61-63 *)
Definition StreamMarshaledSize (r w : State) : res Z :=
  do a <- MarshaledSize r; do b <- MarshaledSize w; Ok (a + b).

(* packet/packetio/stream.go:67-71 *)
Definition StreamMarshal (r w : State) (dest : bytes) : res (bytes * bytes) :=
  do ' (a, dest) <- Marshal r dest;
  do ' (b, dest) <- Marshal w dest;
  Ok (a ++ b, dest).
