(* GrpcSpec.v: keys, packets and messages. *)
From Verif Require Export Grpc.
Local Open Scope Z_scope.

(* Keys that were generated *)
Fixpoint generated (l : list kstep) : list nat :=
  match l with [] => [] | Look _ k :: t => k :: generated t | _ :: t => generated t end.
(* Number of the first n instances which have a key and belong to a process *)
Definition has_key (s : keys) (i : nat) : bool := match k_phase s i with Have _ => true | _ => false end.
Definition holders (proc : nat -> nat) (s : keys) (n p : nat) : Z :=
  Z.of_nat (length (filter (fun i => has_key s i && Nat.eqb (proc i) p) (seq 0 n))).

(* The size field is right *)
Definition sized (p : bytes) : Prop := (8 <= length p)%nat /\ unle (firstn 4 p) = len p.
(* A buffer of packets, cut by their size fields *)
Inductive cut : bytes -> list bytes -> Prop :=
| cut_nil : cut [] []
| cut_one p b l : sized p -> cut b l -> cut (p ++ b) (p :: l).
(* The same domain, index and contents *)
Definition same_packet (p q : bytes) : Prop := length p = length q /\ skipn 6 p = skipn 6 q.
(* Messages before the stream ends *)
Fixpoint messages (stream : list received) : list bytes :=
  match stream with Msg b :: t => b :: messages t | _ => [] end.
Definition packet_like (b : bytes) : Prop := is_bytes b /\ (8 <= length b)%nat /\ len b < 2 ^ 32.
Definition coded (code : Z) (p : bytes) : Prop := unle (firstn 2 (skipn 4 p)) = code mod 2 ^ 16.
