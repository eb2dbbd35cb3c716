(* SnapshotSpec.v: the WebAssembly binary format notions used to state what the
   sections of a snapshot mean, independently of the code that writes or reads
   them (WebAssembly core specification 1.0, section 5). *)
From Verif Require Import Base SnapshotSections.

(* Unsigned and signed LEB128: the value denoted by a byte sequence. *)
Inductive uleb : Z -> bytes -> Prop :=
| uleb_last b : 0 <= b < 128 -> uleb b [b]
| uleb_more b x l : 0 <= b < 128 -> uleb x l -> uleb (b + 128 * x) ((b + 128) :: l).

Inductive sleb : Z -> bytes -> Prop :=
| sleb_pos b : 0 <= b < 64 -> sleb b [b]
| sleb_neg b : 64 <= b < 128 -> sleb (b - 128) [b]
| sleb_more b x l : 0 <= b < 128 -> sleb x l -> sleb (b + 128 * x) ((b + 128) :: l).

(* u32 in the binary format: at most five bytes. *)
Definition wasm_u32 (x : Z) (l : bytes) : Prop := uleb x l /\ 0 <= x < 2 ^ 32 /\ len l <= 5.

(* A section: id, size of the content as u32, content. *)
Definition is_section (id : Z) (content bs : bytes) : Prop :=
  exists size, wasm_u32 (len content) size /\ bs = id :: size ++ content.

(* A custom section: id 0, content starts with the name. *)
Definition is_custom_section (name content bs : bytes) : Prop :=
  exists nlen, wasm_u32 (len name) nlen /\ is_section 0 (nlen ++ name ++ content) bs.

(* limits of a memory type. *)
Definition is_limits (min : Z) (max : option Z) (bs : bytes) : Prop :=
  match max with
  | None => exists m, wasm_u32 min m /\ bs = 0 :: m
  | Some x => exists m l, wasm_u32 min m /\ wasm_u32 x l /\ bs = 1 :: m ++ l
  end.

(* A constant initializer expression of a value type denoting a 64-bit cell of
   which a 32-bit type uses the low half (two's complement or IEEE bits). *)
Definition is_const_expr (t : valtype) (cell : Z) (bs : bytes) : Prop :=
  match t with
  | I32 => exists v e, sleb v e /\ len e <= 5 /\ - 2 ^ 31 <= v < 2 ^ 31 /\ v mod 2 ^ 32 = cell mod 2 ^ 32 /\ bs = 65 :: e ++ [11]
  | I64 => exists v e, sleb v e /\ len e <= 10 /\ - 2 ^ 63 <= v < 2 ^ 63 /\ v mod 2 ^ 64 = cell /\ bs = 66 :: e ++ [11]
  | F32 => exists e, is_bytes e /\ len e = 4 /\ unle e = cell mod 2 ^ 32 /\ bs = 67 :: e ++ [11]
  | F64 => exists e, is_bytes e /\ len e = 8 /\ unle e = cell /\ bs = 68 :: e ++ [11]
  end.

Definition valtype_byte (t : valtype) : Z :=
  match t with I32 => 127 | I64 => 126 | F32 => 125 | F64 => 124 end.

(* A global: type, mutability, initializer. *)
Definition is_global (t : globaltype) (cell : Z) (bs : bytes) : Prop :=
  exists e, is_const_expr (gtype t) cell e /\
    bs = valtype_byte (gtype t) :: (if gmutable t then 1 else 0) :: e.

(* A vector of globals. *)
Inductive are_globals : list globaltype -> list Z -> bytes -> Prop :=
| ag_nil : are_globals [] [] []
| ag_cons t ts c cs b bs : is_global t c b -> are_globals ts cs bs -> are_globals (t :: ts) (c :: cs) (b ++ bs).

(* Snapshot contents that fit their announced widths. *)
Definition snap_ok (s : snap) : Prop :=
  0 <= Flags s < 2 ^ 64 /\ - 2 ^ 31 <= Trap s < 2 ^ 31 /\ - 2 ^ 31 <= Result s < 2 ^ 31 /\
  0 <= MonotonicTime s < 2 ^ 64 /\ Forall (fun b => 0 <= b < 2 ^ 64) (Breakpoints s).

(* Buffers within the limits of the format: service names of 1 to 127 bytes,
   all lengths below 2^31, the whole section below 2^32. *)
Definition buffers_ok (bs : buffers) : Prop :=
  is_bytes (Input bs) /\ is_bytes (Output bs) /\
  len (Input bs) < 2 ^ 31 /\ len (Output bs) < 2 ^ 31 /\ len (Services bs) < 2 ^ 31 /\
  Forall (fun s => is_bytes (sname s) /\ is_bytes (sbuffer s) /\ 1 <= len (sname s) <= 127 /\ len (sbuffer s) < 2 ^ 31) (Services bs) /\
  27 + len (Input bs) + len (Output bs) +
    fold_right (fun s a => 6 + len (sname s) + len (sbuffer s) + a) 0 (Services bs) < 2 ^ 32.
