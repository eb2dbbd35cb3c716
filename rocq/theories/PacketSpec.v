(* PacketSpec.v: what a user of the packet package sees of a packet: five
   independent fields.  Independent of byte layout. *)
From Verif Require Import Packet.

Record view := View { v_size : Z; v_code : Z; v_domain : Z; v_index : Z; v_content : bytes }.

(* The observable fields of a packet, through the accessors. *)
Definition observe (b : bytes) : res view :=
  do s <- EncodedSize b; do c <- Code b; do d <- Domain b; do i <- Index b; do k <- Content b;
  Ok (View s c d i k).

(* Effect of a header write on the abstract fields: SetSize stores the packet
   length (8 + content length), the others store their argument; nothing else
   changes. *)
Definition spec_step (o : hop) (v : view) : view :=
  match o with
  | HSize => View (8 + len (v_content v)) (v_code v) (v_domain v) (v_index v) (v_content v)
  | HCode c => View (v_size v) c (v_domain v) (v_index v) (v_content v)
  | HIndex i => View (v_size v) (v_code v) (v_domain v) i (v_content v)
  end.

(* Arguments in the range of their Go types. *)
Definition hop_ok (o : hop) : Prop :=
  match o with HSize => True | HCode c => -2 ^ 15 <= c < 2 ^ 15 | HIndex i => 0 <= i < 256 end.

Definition int32_ok (x : Z) : Prop := -2 ^ 31 <= x < 2 ^ 31.

(* The last write to entry i in a list of writes, or the initial value. *)
Fixpoint last_write (ops : list (nat * (Z * Z))) (i : nat) (init : Z * Z) : Z * Z :=
  match ops with
  | [] => init
  | (j, v) :: t => last_write t i (if Nat.eqb i j then v else init)
  end.
