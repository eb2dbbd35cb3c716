(* Base.v: vocabulary shared by all models.

   Bytes are integers (Z) in 0..255, byte slices are lists of them.  Go's
   fixed-width conversions are written as explicit wraps.  A Go function that
   may return an error or panic returns a [res]. *)
From Coq Require Export List ZArith Lia Bool Arith.
From Coq Require Export ZifyBool ZifyNat.
Export ListNotations.
Open Scope Z_scope.

(* Outcome of a Go function: a value, an error value, or a run-time panic. *)
Inductive res (A : Type) : Type :=
| Ok (a : A)
| Err
| Panic.
Arguments Ok {A} a.
Arguments Err {A}.
Arguments Panic {A}.

Definition bind {A B} (r : res A) (f : A -> res B) : res B :=
  match r with Ok a => f a | Err => Err | Panic => Panic end.

Notation "'do' x <- r ; f" := (bind r (fun x => f))
  (at level 200, x name, r at level 100, f at level 200, right associativity).
Notation "'do' ' p <- r ; f" := (bind r (fun p => f))
  (at level 200, p strict pattern, r at level 100, f at level 200, right associativity).

(* A byte slice. *)
Definition bytes := list Z.
Definition is_byte (b : Z) : Prop := 0 <= b < 256.
Definition is_bytes (l : bytes) : Prop := Forall is_byte l.

(* Length of a slice as an integer: Go's len(). *)
Definition len {A} (l : list A) : Z := Z.of_nat (length l).

(* Go conversions uint8(x), uint16(x), uint32(x), uint64(x), int16(x),
   int32(x), int64(x): two's complement truncation. *)
Definition u8 (x : Z) : Z := x mod 256.
Definition u16 (x : Z) : Z := x mod 2 ^ 16.
Definition u32 (x : Z) : Z := x mod 2 ^ 32.
Definition u64 (x : Z) : Z := x mod 2 ^ 64.
Definition s16 (x : Z) : Z := (x + 2 ^ 15) mod 2 ^ 16 - 2 ^ 15.
Definition s32 (x : Z) : Z := (x + 2 ^ 31) mod 2 ^ 32 - 2 ^ 31.
Definition s64 (x : Z) : Z := (x + 2 ^ 63) mod 2 ^ 64 - 2 ^ 63.

(* encoding/binary LittleEndian: n bytes of v, least significant first. *)
Fixpoint le (n : nat) (v : Z) : bytes :=
  match n with
  | O => []
  | S k => (v mod 256) :: le k (v / 256)
  end.

Fixpoint unle (l : bytes) : Z :=
  match l with
  | [] => 0
  | b :: t => b + 256 * unle t
  end.

(* Go's b[off:off+n] when it is within len(b); out of range is a panic. *)
Definition slice (off n : nat) (b : bytes) : res bytes :=
  if Nat.leb (off + n) (length b) then Ok (firstn n (skipn off b)) else Panic.

(* Go's copy into b[off:off+len(v)] in place, a panic if out of range:
   the effect of binary.LittleEndian.PutUintNN(b[off:], v). *)
Definition put_at (off : nat) (v : bytes) (b : bytes) : res bytes :=
  if Nat.leb (off + length v) (length b)
  then Ok (firstn off b ++ v ++ skipn (off + length v) b)
  else Panic.

(* binary.LittleEndian.UintNN(b[off:]) with n bytes. *)
Definition get_le (off n : nat) (b : bytes) : res Z :=
  do x <- slice off n b; Ok (unle x).
