(* SnapshotSections.v: model of the section writers of image/snapshot.go and of
   the section readers of snapshot/wasm/wasm.go, and of Program.LoadBuffers.

   The readers use gate.computer/wag/binary Varuint32 and Varuint64, which are
   not in the repository: they are modelled as the LEB128 readers of the
   WebAssembly specification (at most 5 or 10 bytes, value below 2^32 or 2^64,
   end of input is an error).  wa.GlobalType is modelled as a pair of value
   type and mutability whose Encode() is the WebAssembly binary encoding. *)
From Verif Require Export Varint.
From Coq Require Export String Ascii.
Export ListNotations.
Open Scope list_scope.
Open Scope Z_scope.
Notation length := List.length.

(* The bytes of a Go string constant. *)
Definition str (s : string) : bytes :=
  map (fun a => Z.of_nat (nat_of_ascii a)) (list_ascii_of_string s).

(* snapshot/wasm/wasm.go:26-31 *)
Definition SectionSnapshot := "gate.snapshot"%string.
Definition SectionExport := "gate.export"%string.
Definition SectionBuffer := "gate.buffer"%string.
Definition SectionStack := "gate.stack"%string.

(* ------------------------------------------------------------------ *)
(* Writers                                                              *)

(* A buffer being filled from index i: dest = b[i:]; dest[0] = x, copy(dest, v)
   or binary.PutUvarint(dest, x) followed by advancing i.  Running out of space
   panics.  (Go's copy would truncate; the following reslice or store then
   panics at the latest, so the outcome is the same.) *)
Definition wput (w : bytes * nat) (v : bytes) : res (bytes * nat) :=
  let '(b, i) := w in
  do b' <- put_at i v b; Ok (b', (i + length v)%nat).

(* image/snapshot.go:667-672 putVaruint32Before: n and the new buffer.  x is a
   uint32. *)
Definition putVaruint32Before (dest : bytes) (offset : nat) (x : Z) : res (nat * bytes) :=
  let v := put_uvarint_bytes x in
  let n := length v in
  if Nat.ltb offset n then Panic
  else do d <- put_at (offset - n) v dest; Ok (n, d).

(* b[n] = x with n already decremented by the caller: "n--; b[n] = x". *)
Definition putByteBefore (b : bytes) (n : nat) (x : Z) : res (nat * bytes) :=
  match n with
  | O => Panic
  | S k => do b' <- put_at k [x] b; Ok (k, b')
  end.

(* image/snapshot.go:378-401 makeMemorySection.  wa.PageBits is 16,
   binary.MaxVarintLen32 is 5, section.Memory is 5. *)
Definition makeMemorySection (memorySize memorySizeLimit : Z) : res bytes :=
  let b := repeat 0 14 in
  let n := 14%nat in
  do '(maxFlag, n, b) <-
    (if memorySizeLimit >=? 0
     then do '(k, b) <- putVaruint32Before b n (u32 (memorySizeLimit / 2 ^ 16));
          Ok (1, (n - k)%nat, b)
     else Ok (0, n, b));
  do '(k, b) <- putVaruint32Before b n (u32 (memorySize / 2 ^ 16));
  let n := (n - k)%nat in
  do '(n, b) <- putByteBefore b n maxFlag;
  do '(n, b) <- putByteBefore b n 1;
  let payloadLen := len b - Z.of_nat n in
  do '(n, b) <- putByteBefore b n (u8 payloadLen);
  do '(n, b) <- putByteBefore b n 5;
  Ok (skipn n b).

(* wag wa.Type of a global; wa.GlobalType also has a mutable flag. *)
Inductive valtype := I32 | I64 | F32 | F64.
Record globaltype := { gtype : valtype; gmutable : bool }.

(* wag wa.GlobalType.Encode (WebAssembly binary format of globaltype). *)
Definition encode_globaltype (t : globaltype) : bytes :=
  [match gtype t with I32 => 127 | I64 => 126 | F32 => 125 | F64 => 124 end;
   if gmutable t then 1 else 0].

(* image/snapshot.go:692-705 putVarint: the bytes written for an int64.  The
   loop ends within ten rounds; [fuel] only makes the recursion structural.
   x & 0x7f is x mod 128 and x >>= 7 is the arithmetic shift x / 128. *)
Fixpoint varint_bytes (fuel : nat) (x : Z) : bytes :=
  let b := x mod 128 in
  let x' := x / 128 in
  if ((x' =? 0) && (b <? 64)) || ((x' =? -1) && (64 <=? b)) then [b]
  else match fuel with
       | O => [b + 128]
       | S k => (b + 128) :: varint_bytes k x'
       end.
Definition putVarint (x : Z) : bytes := varint_bytes 9 x.

(* image/snapshot.go:430-471 putGlobals.  Writes at (b, i); segment is read
   eight bytes at a time and panics when it is too short.  Opcodes: i32.const
   0x41, i64.const 0x42, f32.const 0x43, f64.const 0x44, end 0x0b. *)
Fixpoint putGlobals (w : bytes * nat) (globalTypes : list globaltype) (segment : bytes) : res (bytes * nat) :=
  match globalTypes with
  | [] => Ok w
  | t :: rest =>
      do value <- get_le 0 8 segment;
      let segment := skipn 8 segment in
      do w <- wput w (encode_globaltype t);
      do w <- match gtype t with
              | I32 => do w <- wput w [65]; wput w (putVarint (s32 (u32 value)))
              | I64 => do w <- wput w [66]; wput w (putVarint (s64 value))
              | F32 => do w <- wput w [67]; wput w (le 4 (u32 value))
              | F64 => do w <- wput w [68]; wput w (le 8 value)
              end;
      do w <- wput w [11];
      putGlobals w rest segment
  end.

(* image/snapshot.go:403-428 makeGlobalSection.  section.Global is 6; the
   header is at most 1+5+5 bytes and an item at most 1+1+1+10+1. *)
Definition makeGlobalSection (globalTypes : list globaltype) (segment : bytes) : res bytes :=
  match globalTypes with
  | [] => Ok []
  | _ =>
      let maxHeaderSize := 11%nat in
      let buf := repeat 0 (maxHeaderSize + length globalTypes * 14) in
      do '(buf, e) <- putGlobals (buf, maxHeaderSize) globalTypes segment;
      let itemsSize := (e - maxHeaderSize)%nat in
      do '(countSize, buf) <- putVaruint32Before buf maxHeaderSize (u32 (len globalTypes));
      let payloadLen := Z.of_nat (countSize + itemsSize) in
      do '(payloadLenSize, buf) <- putVaruint32Before buf (maxHeaderSize - countSize) (u32 payloadLen);
      do '(n, buf) <- putByteBefore buf (maxHeaderSize - countSize - payloadLenSize) 6;
      slice n (maxHeaderSize + itemsSize - n) buf
  end.

(* internal/manifest/manifest.pb.go Snapshot.  Trap and Result are int32. *)
Record snap := { Flags : Z; Trap : Z; Result : Z; MonotonicTime : Z; Breakpoints : list Z }.

(* Loop of image/snapshot.go:504-506. *)
Fixpoint putUvarints (w : bytes * nat) (l : list Z) : res (bytes * nat) :=
  match l with
  | [] => Ok w
  | x :: t => do w <- wput w (put_uvarint_bytes x); putUvarints w t
  end.

(* image/snapshot.go:473-512 makeSnapshotSection for a non-nil manifest (nil is
   inflated to zeros).  uint64 of an int32 sign-extends. *)
Definition makeSnapshotSection (s : snap) : res bytes :=
  let maxSectionFrameSize := 6%nat in
  let maxPayloadSize :=
    (1 + length (str SectionSnapshot) + 1 + 10 + 5 + 5 + 10 + 5 + 10 * length (Breakpoints s))%nat in
  let b := repeat 0 (maxSectionFrameSize + maxPayloadSize) in
  do w <- wput (b, maxSectionFrameSize) [u8 (len (str SectionSnapshot))];
  do w <- wput w (str SectionSnapshot);
  do w <- wput w [0];
  do w <- wput w (put_uvarint_bytes (Flags s));
  do w <- wput w (put_uvarint_bytes (u64 (Trap s)));
  do w <- wput w (put_uvarint_bytes (u64 (Result s)));
  do w <- wput w (put_uvarint_bytes (MonotonicTime s));
  do w <- wput w (put_uvarint_bytes (u64 (len (Breakpoints s))));
  do '(b, i) <- putUvarints w (Breakpoints s);
  let payloadLen := u32 (Z.of_nat (i - maxSectionFrameSize)) in
  do '(payloadLenSize, b) <- putVaruint32Before b maxSectionFrameSize payloadLen;
  do '(n, b) <- putByteBefore b (maxSectionFrameSize - payloadLenSize) 0;
  slice n (i - n) b.

(* image/snapshot.go:514-532 makeExportSectionWrapFrame *)
Definition makeExportSectionWrapFrame (exportSectionSize : Z) : res bytes :=
  let maxSectionFrameSize := 6%nat in
  let nameHeaderSize := (1 + length (str SectionExport))%nat in
  let b := repeat 0 (maxSectionFrameSize + nameHeaderSize) in
  do w <- wput (b, maxSectionFrameSize) [u8 (len (str SectionExport))];
  do '(b, i) <- wput w (str SectionExport);
  let payloadLen := u32 (Z.of_nat nameHeaderSize + u32 exportSectionSize) in
  do '(payloadLenSize, b) <- putVaruint32Before b maxSectionFrameSize payloadLen;
  do '(n, b) <- putByteBefore b (maxSectionFrameSize - payloadLenSize) 0;
  slice n (i - n) b.

(* snapshot/snapshot.go Buffers and Service. *)
Record service := { sname : bytes; sbuffer : bytes }.
Record buffers := { Input : bytes; Output : bytes; Services : list service }.

(* internal/varint/varint.go:42-45 varint.Put in buffer form: int32 value,
   uint64(value) sign-extends. *)
Definition wvarint (w : bytes * nat) (value : Z) : res (bytes * nat) :=
  wput w (put_uvarint_bytes (u64 (s32 value))).

(* Loop of image/snapshot.go:567-573. *)
Fixpoint putServices (w : bytes * nat) (l : list service) : res (bytes * nat) :=
  match l with
  | [] => Ok w
  | s :: t =>
      do w <- wput w [u8 (len (sname s))];
      do w <- wput w (sname s);
      do w <- wvarint w (len (sbuffer s));
      putServices w t
  end.

Definition sum_sizes (l : list service) : Z := fold_right (fun s a => len (sbuffer s) + a) 0 l.
Definition max_service_sizes (l : list service) : nat :=
  fold_right (fun s a => (1 + length (sname s) + MaxLen + a)%nat) O l.

(* image/snapshot.go:534-584 makeBufferSectionHeader: header and sectionSize. *)
Definition makeBufferSectionHeader (bs : buffers) : res (bytes * Z) :=
  if (len (Services bs) =? 0) && (len (Input bs) =? 0) && (len (Output bs) =? 0) then Ok ([], 0)
  else
    let maxSectionFrameSize := (1 + MaxLen)%nat in
    let maxHeaderSize :=
      (maxSectionFrameSize + 1 + length (str SectionBuffer) + MaxLen + MaxLen + MaxLen
       + max_service_sizes (Services bs))%nat in
    let buf := repeat 0 maxHeaderSize in
    do w <- wput (buf, maxSectionFrameSize) [u8 (len (str SectionBuffer))];
    do w <- wput w (str SectionBuffer);
    do w <- wvarint w (len (Input bs));
    do w <- wvarint w (len (Output bs));
    do w <- wvarint w (len (Services bs));
    do '(buf, i) <- putServices w (Services bs);
    let dataSize := len (Input bs) + len (Output bs) + sum_sizes (Services bs) in
    let payloadLen := u32 (u32 (Z.of_nat (i - maxSectionFrameSize)) + u32 dataSize) in
    do '(payloadLenSize, buf) <- putVaruint32Before buf maxSectionFrameSize payloadLen;
    do '(n, buf) <- putByteBefore buf (maxSectionFrameSize - payloadLenSize) 0;
    do header <- slice n (i - n) buf;
    Ok (header, len header + dataSize).

(* image/snapshot.go:586-613 writeBufferSectionDataAt: the bytes written. *)
Definition bufferSectionData (bs : buffers) : bytes :=
  Input bs ++ Output bs ++ flat_map sbuffer (Services bs).

(* image/snapshot.go:615-629 makeStackSectionHeader *)
Definition makeStackSectionHeader (stackSize : Z) : res bytes :=
  let customHeaderSize := (1 + length (str SectionStack))%nat in
  let buf := repeat 0 (6 + customHeaderSize) in
  do w <- wput (buf, 0%nat) [0];
  do w <- wput w (put_uvarint_bytes (u64 (Z.of_nat customHeaderSize + stackSize)));
  do w <- wput w [u8 (len (str SectionStack))];
  do '(buf, i) <- wput w (str SectionStack);
  slice 0 i buf.

(* image/snapshot.go:631-655 makeDataSectionHeader.  section.Data is 11. *)
Definition makeDataSectionHeader (memorySize : Z) : res bytes :=
  let maxSectionFrameSize := 6%nat in
  let buf := repeat 0 (maxSectionFrameSize + 10) in
  do '(buf, i) <- wput (buf, maxSectionFrameSize) [1; 0; 65; 0; 11];
  do '(buf, i) <- wput (buf, i) (put_uvarint_bytes (u64 memorySize));
  let segmentHeaderSize := (i - maxSectionFrameSize)%nat in
  let payloadLen := Z.of_nat segmentHeaderSize + memorySize in
  do '(payloadLenSize, buf) <- putVaruint32Before buf maxSectionFrameSize (u32 payloadLen);
  do '(n, buf) <- putByteBefore buf (maxSectionFrameSize - payloadLenSize) 11;
  slice n (i - n) buf.

(* ------------------------------------------------------------------ *)
(* Readers                                                              *)

(* gate.computer/wag/binary.Varuint32 and Varuint64 (not in the repository):
   value, number of bytes read, rest of the input. *)
Fixpoint varuint (k : nat) (bits : Z) (r : bytes) : res (Z * nat * bytes) :=
  match k, r with
  | O, _ => Err
  | _, [] => Err
  | S k', b :: t =>
      if b <? 128 then (if b <? 2 ^ bits then Ok (b, 1%nat, t) else Err)
      else do '(x, n, t') <- varuint k' (bits - 7) t; Ok (b - 128 + 128 * x, S n, t')
  end.
Definition Varuint32 := varuint 5 32.
Definition Varuint64 := varuint 10 64.

(* Loop of snapshot/wasm/wasm.go:82-89. *)
Fixpoint readVaruint64s (count : nat) (r : bytes) : res (list Z * nat * bytes) :=
  match count with
  | O => Ok ([], O, r)
  | S k =>
      do '(x, n, r) <- Varuint64 r;
      do '(l, m, r) <- readVaruint64s k r;
      Ok (x :: l, (n + m)%nat, r)
  end.

(* internal/manifest/manifest.go:13 *)
Definition MaxBreakpoints := 100.

(* snapshot/wasm/wasm.go:33-92 ReadSnapshotSection: snapshot, readLen and the
   rest of the input.  version < minSnapshotVersion (0) is never true. *)
Definition ReadSnapshotSection (r : bytes) : res (snap * nat * bytes) :=
  do '(version, n1, r) <- Varuint64 r;
  do '(flags, n2, r) <- Varuint64 r;
  do '(trapID, n3, r) <- Varuint32 r;
  do '(result, n4, r) <- Varuint32 r;
  do '(mono, n5, r) <- Varuint64 r;
  do '(num, n6, r) <- Varuint32 r;
  if num >? MaxBreakpoints then Err
  else
    do '(l, n7, r) <- readVaruint64s (Z.to_nat num) r;
    Ok ({| Flags := flags; Trap := s32 trapID; Result := s32 result; MonotonicTime := mono; Breakpoints := l |},
        (n1 + n2 + n3 + n4 + n5 + n6 + n7)%nat, r).

(* snapshot/wasm/wasm.go:23 *)
Definition maxServiceNameLen := 127.

(* Loop of snapshot/wasm/wasm.go:121-151: names and sizes of the services.
   The counter is a Z because the count is an untrusted uint32; every round
   reads at least one byte, so [fuel] = length of the input plus one is always
   enough (out of fuel means out of input, an error). *)
Fixpoint readServices (fuel : nat) (count : Z) (r : bytes) : res (list (bytes * Z) * nat * bytes) :=
  if count <=? 0 then Ok ([], O, r)
  else match fuel with
  | O => Err
  | S k =>
      match r with
      | [] => Err
      | nameLen :: r =>
          if (nameLen =? 0) || (nameLen >? maxServiceNameLen) then Err
          else if Nat.ltb (length r) (Z.to_nat nameLen) then Err (* io.ReadFull: unexpected EOF *)
          else
            let name := firstn (Z.to_nat nameLen) r in
            let r := skipn (Z.to_nat nameLen) r in
            do '(size, n, r) <- Varuint32 r;
            do '(l, m, r) <- readServices k (count - 1) r;
            Ok ((name, size) :: l, (1 + Z.to_nat nameLen + n + m)%nat, r)
      end
  end.

(* Result of ReadBufferSectionHeader: the announced sizes; the buffers are
   slices of a data buffer of the given total size that the caller fills. *)
Record bufheader := { inputSize : Z; outputSize : Z; serviceSizes : list (bytes * Z); readLen : nat; dataSize : Z }.

(* snapshot/wasm/wasm.go:94-174 ReadBufferSectionHeader.  First component: the
   element counts passed to make(), in order, up to where the function returns;
   second: header and the rest of the input.  (The slicing of dataBuf at
   159-171 is in [fill].) *)
Definition ReadBufferSectionHeader (r : bytes) (length_ : Z) : list Z * res (bufheader * bytes) :=
  match (do '(inputSize, n1, r) <- Varuint32 r;
         do '(outputSize, n2, r) <- Varuint32 r;
         do '(serviceCount, n3, r) <- Varuint32 r;
         Ok (inputSize, outputSize, serviceCount, (n1 + n2 + n3)%nat, r)) with
  | Err => ([], Err)
  | Panic => ([], Panic)
  | Ok (inputSize, outputSize, serviceCount, n, r) =>
      match readServices (S (length r)) serviceCount r with
      | Err => ([serviceCount; serviceCount], Err)
      | Panic => ([serviceCount; serviceCount], Panic)
      | Ok (l, m, r) =>
          let readLen := (n + m)%nat in
          let dataSize := inputSize + outputSize + fold_right (fun p a => snd p + a) 0 l in
          if Z.of_nat readLen + dataSize >? length_ then ([serviceCount; serviceCount], Err)
          else ([serviceCount; serviceCount; dataSize],
                Ok ({| inputSize := inputSize; outputSize := outputSize; serviceSizes := l;
                       readLen := readLen; dataSize := dataSize |}, r))
      end
  end.

(* Slicing of the data buffer, snapshot/wasm/wasm.go:159-171, after the data
   buffer has been filled. *)
Fixpoint fillServices (l : list (bytes * Z)) (data : bytes) : list service :=
  match l with
  | [] => []
  | (name, size) :: t =>
      {| sname := name; sbuffer := firstn (Z.to_nat size) data |} :: fillServices t (skipn (Z.to_nat size) data)
  end.
Definition fill (h : bufheader) (data : bytes) : buffers :=
  {| Input := firstn (Z.to_nat (inputSize h)) data;
     Output := firstn (Z.to_nat (outputSize h)) (skipn (Z.to_nat (inputSize h)) data);
     Services := fillServices (serviceSizes h)
                   (skipn (Z.to_nat (outputSize h)) (skipn (Z.to_nat (inputSize h)) data)) |}.

(* The buffer section loader of build/build.go:234-262: content is the
   section's payload after its name.  The data is read with io.ReadFull. *)
Definition loadBufferSection (content : bytes) : res (buffers * nat) :=
  match snd (ReadBufferSectionHeader content (len content)) with
  | Ok (h, r) =>
      if Nat.ltb (length r) (Z.to_nat (dataSize h)) then Err
      else Ok (fill h (firstn (Z.to_nat (dataSize h)) r), readLen h)
  | Err => Err
  | Panic => Panic
  end.

(* os.File.ReadAt of exactly n bytes: a short read is an error. *)
Definition readAt (file : bytes) (off n : nat) : res bytes :=
  if Nat.leb (off + n) (length file) then Ok (firstn n (skipn off file)) else Err.

(* image/program.go:83-110 LoadBuffers.  [module] is the program file from
   progModuleOffset onward, (off, length_) the BufferSection range and
   headerLength BufferSectionHeaderLength of the manifest. *)
Definition LoadBuffers (module : bytes) (off : nat) (length_ : Z) (headerLength : nat) : res buffers :=
  if length_ =? 0 then Ok {| Input := []; Output := []; Services := [] |}
  else
    do header <- readAt module off headerLength;
    match snd (ReadBufferSectionHeader header (u32 length_)) with
    | Ok (h, _) =>
        do dataBuf <- readAt module (off + readLen h) (Z.to_nat (dataSize h));
        Ok (fill h dataBuf)
    | Err => Err
    | Panic => Panic
    end.
