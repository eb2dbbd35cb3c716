(* Manifest.v: model of the protobuf messages Instance, Function and Snapshot of
   internal/manifest/manifest.proto and of their wire format as written and
   read by google.golang.org/protobuf's proto.Marshal and proto.Unmarshal, and
   of the manifest area of an instance or program file
   (image/filesystem.go:264-300). *)
From Verif Require Export Base Varint.

(* internal/manifest/manifest.proto:61-64 Function *)
Record func := Func { f_index : Z; f_addr : Z }.
(* internal/manifest/manifest.proto:66-72 Snapshot *)
Record snap := Snap { s_flags : Z; s_trap : Z; s_result : Z; s_time : Z; s_breaks : list Z }.
(* internal/manifest/manifest.proto:48-59 Instance; a nil sub-message is None *)
Record iman := IMan {
  m_text : Z; m_stack_size : Z; m_stack_usage : Z; m_globals : Z; m_memory : Z; m_max_memory : Z;
  m_init : Z; m_start : option func; m_entry : option func; m_snap : option snap }.

(* Protobuf wire format: field key, number and wire type. *)
Definition key (num wt : Z) : bytes := put_uvarint_bytes (num * 8 + wt).
(* An implicit-presence scalar is left out when it is zero; a negative int32
   is sign-extended to 64 bits. *)
Definition vfield (num v : Z) : bytes := if v =? 0 then [] else key num 0 ++ put_uvarint_bytes (u64 v).
Definition bfield (num : Z) (b : bytes) : bytes := key num 2 ++ put_uvarint_bytes (len b) ++ b.

(* proto.Marshal of Function, Snapshot and Instance: fields in ascending
   number order; repeated uint64 is packed. *)
Definition enc_func (f : func) : bytes := vfield 1 (f_index f) ++ vfield 2 (f_addr f).
Definition enc_snap (s : snap) : bytes :=
  vfield 1 (s_flags s) ++ vfield 2 (s_trap s) ++ vfield 3 (s_result s) ++ vfield 4 (s_time s) ++
  (match s_breaks s with [] => [] | l => bfield 5 (concat (map put_uvarint_bytes l)) end).
Definition mfield {A} (num : Z) (enc : A -> bytes) (o : option A) : bytes :=
  match o with None => [] | Some x => bfield num (enc x) end.
Definition enc_inst (m : iman) : bytes :=
  vfield 1 (m_text m) ++ vfield 2 (m_stack_size m) ++ vfield 3 (m_stack_usage m) ++ vfield 4 (m_globals m) ++
  vfield 5 (m_memory m) ++ vfield 6 (m_max_memory m) ++ vfield 7 (m_init m) ++
  mfield 8 enc_func (m_start m) ++ mfield 9 enc_func (m_entry m) ++ mfield 10 enc_snap (m_snap m).

(* Wire parser.  Groups (wire types 3 and 4) are rejected here; the real
   parser can skip them. *)
Inductive fval := FVar (v : Z) | FBytes (b : bytes) | FFixed (b : bytes).
Definition take (n : nat) (b : bytes) : res (bytes * bytes) :=
  if Nat.leb n (length b) then Ok (firstn n b, skipn n b) else Err.
Definition get_varint (b : bytes) : res (Z * bytes) :=
  let '(v, n) := Uvarint b in
  if n <=? 0 then Err else Ok (v, skipn (Z.to_nat n) b).
Fixpoint parse (fuel : nat) (b : bytes) : res (list (Z * fval)) :=
  match b, fuel with
  | [], _ => Ok []
  | _, O => Err
  | _, S k =>
      do '(t, r) <- get_varint b;
      if t / 8 =? 0 then Err else
      do '(v, r') <-
        (if t mod 8 =? 0 then do '(v, r') <- get_varint r; Ok (FVar v, r')
         else if t mod 8 =? 1 then do '(v, r') <- take 8 r; Ok (FFixed v, r')
         else if t mod 8 =? 2 then
           do '(n, r1) <- get_varint r; do '(v, r') <- take (Z.to_nat n) r1; Ok (FBytes v, r')
         else if t mod 8 =? 5 then do '(v, r') <- take 4 r; Ok (FFixed v, r')
         else Err);
      do l <- parse k r';
      Ok ((t / 8, v) :: l)
  end.
Definition fields (b : bytes) : res (list (Z * fval)) := parse (length b) b.

(* Packed uint64 list. *)
Fixpoint varints (fuel : nat) (b : bytes) : res (list Z) :=
  match b, fuel with
  | [], _ => Ok []
  | _, O => Err
  | _, S k => do '(v, r) <- get_varint b; do l <- varints k r; Ok (v :: l)
  end.

(* proto.Unmarshal: fields are merged in the order in which they occur;
   unknown fields and unexpected wire types are ignored. *)
Fixpoint merge {A} (step : A -> Z * fval -> res A) (l : list (Z * fval)) (x : A) : res A :=
  match l with [] => Ok x | f :: t => do y <- step x f; merge step t y end.
Definition func0 := Func 0 0.
Definition snap0 := Snap 0 0 0 0 [].
Definition iman0 := IMan 0 0 0 0 0 0 0 None None None.
Definition func_step (x : func) (f : Z * fval) : res func :=
  match snd f with
  | FVar v =>
      if fst f =? 1 then Ok (Func (u32 v) (f_addr x))
      else if fst f =? 2 then Ok (Func (f_index x) (u32 v)) else Ok x
  | _ => Ok x
  end.
Definition dec_func (b : bytes) (x : func) : res func := do l <- fields b; merge func_step l x.
Definition snap_step (x : snap) (f : Z * fval) : res snap :=
  match snd f with
  | FVar v =>
      if fst f =? 1 then Ok (Snap (u64 v) (s_trap x) (s_result x) (s_time x) (s_breaks x))
      else if fst f =? 2 then Ok (Snap (s_flags x) (s32 v) (s_result x) (s_time x) (s_breaks x))
      else if fst f =? 3 then Ok (Snap (s_flags x) (s_trap x) (s32 v) (s_time x) (s_breaks x))
      else if fst f =? 4 then Ok (Snap (s_flags x) (s_trap x) (s_result x) (u64 v) (s_breaks x))
      else if fst f =? 5 then Ok (Snap (s_flags x) (s_trap x) (s_result x) (s_time x) (s_breaks x ++ [u64 v]))
      else Ok x
  | FBytes b =>
      if fst f =? 5 then
        do l <- varints (length b) b;
        Ok (Snap (s_flags x) (s_trap x) (s_result x) (s_time x) (s_breaks x ++ l))
      else Ok x
  | FFixed _ => Ok x
  end.
Definition dec_snap (b : bytes) (x : snap) : res snap := do l <- fields b; merge snap_step l x.
Definition orelse {A} (o : option A) (d : A) : A := match o with Some x => x | None => d end.
Definition inst_step (x : iman) (f : Z * fval) : res iman :=
  let '(IMan a b c d e g i st en sn) := x in
  match snd f with
  | FVar v =>
      if fst f =? 1 then Ok (IMan (u64 v) b c d e g i st en sn)
      else if fst f =? 2 then Ok (IMan a (u32 v) c d e g i st en sn)
      else if fst f =? 3 then Ok (IMan a b (u32 v) d e g i st en sn)
      else if fst f =? 4 then Ok (IMan a b c (u32 v) e g i st en sn)
      else if fst f =? 5 then Ok (IMan a b c d (u32 v) g i st en sn)
      else if fst f =? 6 then Ok (IMan a b c d e (u32 v) i st en sn)
      else if fst f =? 7 then Ok (IMan a b c d e g (u32 v) st en sn)
      else Ok x
  | FBytes bs =>
      if fst f =? 8 then do y <- dec_func bs (orelse st func0); Ok (IMan a b c d e g i (Some y) en sn)
      else if fst f =? 9 then do y <- dec_func bs (orelse en func0); Ok (IMan a b c d e g i st (Some y) sn)
      else if fst f =? 10 then do y <- dec_snap bs (orelse sn snap0); Ok (IMan a b c d e g i st en (Some y))
      else Ok x
  | FFixed _ => Ok x
  end.
Definition dec_inst (b : bytes) : res iman := do l <- fields b; merge inst_step l iman0.

(* image/filesystem.go:21-25 and internal/manifest/manifest.go:12 *)
Definition programFileTag : Z := 1246917821.      (* 0x4a5274bd *)
Definition instanceFileTag : Z := 3020283141.     (* 0xb405dd05 *)
Definition manifestHeaderSize : Z := 8.
Definition ManifestMaxSize : nat := 4096.

(* image/filesystem.go:264-275 marshalManifest: the bytes written.  uint32(size)
   is truncated silently; there is no check against MaxSize. *)
Definition manifest_bytes (tag : Z) (marsh : bytes) : bytes :=
  le 4 tag ++ le 4 (u32 (manifestHeaderSize + len marsh)) ++ marsh.

(* image/filesystem.go:280-300 unmarshalManifest, up to proto.Unmarshal: b holds
   the MaxSize bytes read at the offset. *)
Definition manifest_payload (tag : Z) (b : bytes) : res bytes :=
  if negb (unle (firstn 4 b) =? tag) then Err
  else
    let size := unle (firstn 4 (skipn 4 b)) in
    if (size <? manifestHeaderSize) || (size >? Z.of_nat ManifestMaxSize) then Err
    else Ok (firstn (Z.to_nat (size - manifestHeaderSize)) (skipn 8 b)).
