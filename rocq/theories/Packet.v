(* Packet.v: model of packet/packet.go and packet/packettest.go.
   A Buf is a byte list; methods that write through the slice return the new
   content.  Out-of-range slicing is Panic. *)
From Verif Require Export Base.

(* packet/packet.go:22-27 *)
Definition DomainCall := 0.
Definition DomainInfo := 1.
Definition DomainFlow := 2.
Definition DomainData := 3.

(* packet/packet.go:53-80.  nat: used as slice offsets. *)
Definition OffsetSize := 0%nat.
Definition OffsetCode := 4%nat.
Definition OffsetDomain := 6%nat.
Definition OffsetIndex := 7%nat.
Definition HeaderSize := 8%nat.
Definition OffsetServicesCount := 8%nat.
Definition ServicesHeaderSize := 10%nat.
Definition FlowHeaderSize := 8%nat.
Definition OffsetDataID := 8%nat.
Definition OffsetDataNote := 12%nat.
Definition DataHeaderSize := 16%nat.
Definition flowSize := 8%nat.

(* packet/packet.go:31 Domain.IsStream *)
Definition IsStream (dom : Z) : bool := negb (Z.land dom 2 =? 0).

(* packet/packet.go:83-85 Align: (length + 7) &^ 7 on a Go int. *)
Definition Align (length : Z) : Z := Z.land (length + 7) (Z.lnot 7).

(* make([]byte, n): zeroed. *)
Definition zeros (n : nat) : bytes := repeat 0 n.

(* packet/packet.go:150-152 Buf.Code: int16 *)
Definition Code (b : bytes) : res Z := do x <- get_le OffsetCode 2 b; Ok (s16 x).

(* packet/packet.go:154-156 Buf.SetCode *)
Definition SetCode (code : Z) (b : bytes) : res bytes := put_at OffsetCode (le 2 (u16 code)) b.

(* packet/packet.go:139-143 Buf.SetSize.  len(b) > MaxUint32 panics. *)
Definition SetSize (b : bytes) : res bytes :=
  if len b >? 4294967295 then Panic else put_at OffsetSize (le 4 (u32 (len b))) b.

(* packet/packet.go:146-148 Buf.EncodedSize (int is 64 bits wide) *)
Definition EncodedSize (b : bytes) : res Z := get_le OffsetSize 4 b.

(* packet/packet.go:158-160 Buf.Domain *)
Definition Domain (b : bytes) : res Z := do x <- get_le OffsetDomain 1 b; Ok (Z.land x 15).

(* packet/packet.go:162-164 Buf.Index *)
Definition Index (b : bytes) : res Z := get_le OffsetIndex 1 b.

(* packet/packet.go:166-168 Buf.SetIndex; i is a uint8 *)
Definition SetIndex (i : Z) (b : bytes) : res bytes := put_at OffsetIndex (le 1 i) b.

(* packet/packet.go:171-173 Buf.Content *)
Definition Content (b : bytes) : res bytes :=
  if Nat.leb HeaderSize (length b) then Ok (skipn HeaderSize b) else Panic.

(* packet/packet.go:90-95 Make *)
Definition Make (code domain : Z) (packetSize : nat) : res bytes :=
  do b <- SetCode code (zeros packetSize);
  put_at OffsetDomain (le 1 domain) b.

(* packet/packet.go:97-103 MakeCall, MakeInfo *)
Definition MakeCall (code : Z) (contentSize : nat) := Make code DomainCall (HeaderSize + contentSize).
Definition MakeInfo (code : Z) (contentSize : nat) := Make code DomainInfo (HeaderSize + contentSize).

(* packet/packet.go:201-203 MakeFlows *)
Definition MakeFlows (code : Z) (count : nat) := Make code DomainFlow (FlowHeaderSize + count * flowSize).

(* packet/packet.go:218-220 FlowBuf.Num (Go integer division; len >= 8 by the
   type's contract, otherwise truncation toward zero as in Go) *)
Definition Num (b : bytes) : Z := Z.quot (len b - 8) 8.

(* packet/packet.go:222-227 FlowBuf.Get *)
Definition FlowGet (i : nat) (b : bytes) : res (Z * Z) :=
  do id <- get_le (FlowHeaderSize + i * flowSize) 4 b;
  do inc <- get_le (FlowHeaderSize + i * flowSize + 4) 4 b;
  Ok (s32 id, s32 inc).

(* packet/packet.go:229-233 FlowBuf.Set *)
Definition FlowSet (i : nat) (id increment : Z) (b : bytes) : res bytes :=
  do b1 <- put_at (FlowHeaderSize + i * flowSize) (le 4 (u32 id)) b;
  put_at (FlowHeaderSize + i * flowSize + 4) (le 4 (u32 increment)) b1.

(* packet/packet.go:105-109 MakeFlow *)
Definition MakeFlow (code id increment : Z) : res bytes :=
  do b <- MakeFlows code 1; FlowSet 0 id increment b.

(* packet/packet.go:238-242 MakeData *)
Definition MakeData (code id : Z) (dataSize : nat) : res bytes :=
  do b <- Make code DomainData (DataHeaderSize + dataSize);
  put_at OffsetDataID (le 4 (u32 id)) b.

(* packet/packet.go:257-270 DataBuf.ID, Note, SetNote *)
Definition DataID (b : bytes) : res Z := do x <- get_le OffsetDataID 4 b; Ok (s32 x).
Definition DataNote (b : bytes) : res Z := do x <- get_le OffsetDataNote 4 b; Ok (s32 x).
Definition SetNote (v : Z) (b : bytes) : res bytes := put_at OffsetDataNote (le 4 (u32 v)) b.

(* packet/packet.go:272-278 DataBuf.Data, DataLen *)
Definition Data (b : bytes) : res bytes :=
  if Nat.leb DataHeaderSize (length b) then Ok (skipn DataHeaderSize b) else Panic.
Definition DataLen (b : bytes) : Z := len b - 16.

(* packet/packet.go:180-196 Buf.Split.  The result is (prefix, unused); the
   two slices share b's array: prefix is b[0:prefixLen] with capacity
   prefixCap and unused is b[prefixCap:], so they never overlap and the copy
   into unused cannot change prefix. *)
Definition Split (headerSize prefixLen : nat) (b : bytes) : res (bytes * bytes) :=
  let prefixCap := Nat.min (Z.to_nat (Align (Z.of_nat prefixLen))) (length b) in
  if Nat.ltb prefixCap prefixLen then Panic (* b[:prefixLen:prefixCap] *)
  else
    let prefix := firstn prefixLen b in
    let unused := skipn prefixCap b in
    if Nat.ltb (length unused) headerSize then Ok (prefix, unused)
    else if Nat.ltb prefixCap headerSize then Panic (* prefix[:headerSize] beyond capacity *)
    else Ok (prefix, firstn headerSize b ++ skipn headerSize unused).

(* packet/packet.go:284-288 DataBuf.Split *)
Definition DataSplit (dataLen : nat) (b : bytes) : res (bytes * bytes) :=
  Split DataHeaderSize (DataHeaderSize + dataLen) b.

(* packet/packettest.go:79-81 isValidHeader; && short-circuits *)
Definition isValidHeader (b : bytes) (n : nat) (c d : Z) : res bool :=
  if negb (Nat.leb n (length b)) then Ok false
  else do c' <- Code b;
       if negb (c' =? c) then Ok false
       else do d' <- Domain b; Ok (d' =? d).

(* packet/packettest.go:19-27 *)
Definition IsValidCall (b : bytes) (c : Z) := isValidHeader b HeaderSize c DomainCall.
Definition IsValidInfo (b : bytes) (c : Z) := isValidHeader b HeaderSize c DomainInfo.

(* packet/packettest.go:40-45: the loop over the flow entries; n is the number
   of iterations left *)
Fixpoint flowEntriesOk (b : bytes) (i n : nat) : res bool :=
  match n with
  | O => Ok true
  | S k => do '(id, inc) <- FlowGet i b;
           if (id <? 0) || (inc <? 0) then Ok false else flowEntriesOk b (S i) k
  end.

(* packet/packettest.go:30-46 IsValidFlow *)
Definition IsValidFlow (b : bytes) (c : Z) : res bool :=
  do h <- isValidHeader b FlowHeaderSize c DomainFlow;
  if negb h then Ok false
  else if negb (Z.land (len b) 7 =? 0) then Ok false
  else flowEntriesOk b 0 (Z.to_nat (Num b)).

(* packet/packettest.go:49-55 IsValidData *)
Definition IsValidData (b : bytes) (c : Z) : res bool :=
  do h <- isValidHeader b DataHeaderSize c DomainData;
  if negb h then Ok false
  else do id <- DataID b; Ok (0 <=? id).

(* packet/packettest.go:58-66 ImportCall *)
Definition ImportCall (b : bytes) (c : Z) : res bytes :=
  do h <- isValidHeader b HeaderSize c DomainCall;
  if h then Ok b else Err.

(* packet/packettest.go:69-77 ImportData *)
Definition ImportData (b : bytes) (c : Z) : res bytes :=
  do h <- isValidHeader b DataHeaderSize c DomainData;
  if negb h then Err
  else do id <- DataID b; if id <? 0 then Err else Ok b.

(* ---- Sequences of header writes through the API ---- *)
Inductive hop := HSize | HCode (c : Z) | HIndex (i : Z).
Definition hstep (o : hop) (b : bytes) : res bytes :=
  match o with HSize => SetSize b | HCode c => SetCode c b | HIndex i => SetIndex i b end.
Fixpoint hrun (ops : list hop) (b : bytes) : res bytes :=
  match ops with [] => Ok b | o :: t => do b' <- hstep o b; hrun t b' end.

(* Sequences of flow entry writes. *)
Fixpoint frun (ops : list (nat * (Z * Z))) (b : bytes) : res bytes :=
  match ops with
  | [] => Ok b
  | (i, (id, inc)) :: t => do b' <- FlowSet i id inc b; frun t b'
  end.
