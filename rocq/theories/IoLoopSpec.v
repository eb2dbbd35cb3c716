(* IoLoopSpec.v: the vocabulary of the statements about the packet pipes. *)
From Verif Require Export Base.

(* A packet as the API document (ABI.md) describes it: at least a header, at
   most 65536 bytes, the first four bytes are its length. *)
Definition packet_ok (p : bytes) : Prop :=
  8 <= len p <= 65536 /\ firstn 4 p = le 4 (len p).

(* The padding which follows a packet on a pipe: any bytes up to the next
   multiple of 8. *)
Definition padding_ok (p pad : bytes) : Prop := len pad < 8 /\ (len p + len pad) mod 8 = 0.

(* Packets with their padding, and the byte stream they make. *)
Definition frame_ok (f : bytes * bytes) : Prop := packet_ok (fst f) /\ padding_ok (fst f) (snd f).
Definition stream (fs : list (bytes * bytes)) : bytes := concat (map (fun f => fst f ++ snd f) fs).

(* Is the packet addressed to a service (nonnegative service code)? *)
Definition to_service (p : bytes) : bool := unle (firstn 2 (skipn 4 p)) <? 2 ^ 15.

(* The conditions under which a packet may be delivered to a service, for a
   program that has discovered n services: service code (bytes 4 and 5) below
   n, domain (low half of byte 6) call, info, flow or data, and a data packet
   has at least its 16 byte header. *)
Definition deliverable (n : Z) (p : bytes) : Prop :=
  let code := unle (firstn 2 (skipn 4 p)) in
  let domain := nth 6 p 0 mod 16 in
  code < 2 ^ 15 /\ code < n /\ 0 <= domain <= 3 /\ (domain = 3 -> 16 <= len p).
