(* Varint.v: model of encoding/binary's Uvarint/PutUvarint and of
   internal/varint/varint.go. *)
From Verif Require Export Base.

(* Go standard library encoding/binary varint.go PutUvarint: the bytes written
   for a uint64.  [fuel] bounds the loop "for x >= 0x80"; 10 iterations
   suffice for 64 bits and the theorems use only that. *)
Fixpoint uvarint_bytes (fuel : nat) (x : Z) : bytes :=
  match fuel with
  | O => [x]
  | S k => if x >=? 128 then (x mod 128 + 128) :: uvarint_bytes k (x / 128) else [x]
  end.
Definition put_uvarint_bytes (x : Z) : bytes := uvarint_bytes 9 x.

(* PutUvarint(dest, x): index out of range panics; returns the byte count and
   the new content of dest. *)
Definition PutUvarint (dest : bytes) (x : Z) : res (Z * bytes) :=
  let v := put_uvarint_bytes x in
  do d <- put_at 0 v dest; Ok (len v, d).

(* Go standard library Uvarint (go1.13-1.16: the loop over buf with the
   overflow check at index i >= 9): result (value, n); n = 0: buffer too
   small, n < 0: overflow.
   x |= uint64(b&0x7f) << s is written as x + b * 2^s mod 2^64: the bits are
   disjoint because x < 2^s. *)
Fixpoint uvarint_loop (buf : bytes) (i : nat) (x s : Z) : Z * Z :=
  match buf with
  | [] => (0, 0)
  | b :: t =>
      if b <? 128 then
        if Nat.ltb 9 i || (Nat.eqb i 9 && (b >? 1)) then (0, - (Z.of_nat i + 1))
        else (u64 (x + b * 2 ^ s), Z.of_nat i + 1)
      else uvarint_loop t (S i) (u64 (x + (b mod 128) * 2 ^ s)) (s + 7)
  end.
Definition Uvarint (buf : bytes) : Z * Z := uvarint_loop buf 0 0 0.

(* internal/varint/varint.go:14 *)
Definition MaxLen := 5%nat.

(* internal/varint/varint.go:17-33 Scan *)
Definition Scan (src : bytes) : res (Z * bytes) :=
  let '(x, n) := Uvarint src in
  if n <=? 0 then Err
  else if x >? 2147483647 then Err
  else Ok (s32 x, skipn (Z.to_nat n) src).

(* internal/varint/varint.go:36-39 Len: writes into a 5 byte array.  The
   argument is an int32; uint64(value) sign-extends. *)
Definition Len (value : Z) : res Z :=
  do r <- PutUvarint (repeat 0 MaxLen) (u64 value); Ok (fst r).

(* internal/varint/varint.go:42-45 Put: the bytes written and the tail of dest *)
Definition Put (dest : bytes) (value : Z) : res (bytes * bytes) :=
  do '(n, d) <- PutUvarint dest (u64 value);
  Ok (firstn (Z.to_nat n) d, skipn (Z.to_nat n) d).
