(* Grpc.v: model of service/grpc/grpc.go, the client of service processes. *)
From Verif Require Export Packet.
Local Open Scope Z_scope.

(** ** Process keys *)

(* grpc.go:21-29: procKey and procKeys; processes and keys (UUIDs) are numbers, 0 is the nil key of a zero value *)
Record entry := Entry { e_key : nat; e_count : Z }.
Definition table := nat -> option entry.
Definition no_entry : entry := Entry 0 0.
Definition tput (t : table) (p : nat) (e : option entry) : table := fun x => if Nat.eqb x p then e else t x.
(* A service instance's use of a key.  Missed: getProcKey is between its critical sections, with a key of its own. *)
Inductive phase := Before | Missed (k : nat) | Have (k : nat) | Released.
Record keys := Keys { k_table : table; k_phase : nat -> phase }.
Definition pput (f : nat -> phase) (i : nat) (v : phase) : nat -> phase := fun x => if Nat.eqb x i then v else f x.
(* Critical sections of the instances' calls.  k is the key that uuid.New gives if it is needed. *)
Inductive kstep := Look (i k : nat) | Insert (i : nat) | Release (i : nat).
Definition kinst (x : kstep) : nat := match x with Look i _ | Insert i | Release i => i end.
(* grpc.go:31-57 getProcKey, :59-71 putProcKey; proc is MustContextProcessKey of the instance's context *)
Definition kact (proc : nat -> nat) (x : kstep) (s : keys) : keys :=
  let i := kinst x in let p := proc i in
  match x, k_phase s i with
  | Look _ k, Before =>
      match k_table s p with
      | Some e => Keys (tput (k_table s) p (Some (Entry (e_key e) (e_count e + 1)))) (pput (k_phase s) i (Have (e_key e)))
      | None => Keys (k_table s) (pput (k_phase s) i (Missed k))
      end
  | Insert _, Missed k =>
      match k_table s p with
      | Some e => Keys (tput (k_table s) p (Some (Entry (e_key e) (e_count e + 1)))) (pput (k_phase s) i (Have (e_key e)))
      | None => Keys (tput (k_table s) p (Some (Entry k 1))) (pput (k_phase s) i (Have k))
      end
  | Release _, Have _ =>
      let e := match k_table s p with Some e => e | None => no_entry end in
      let n := e_count e - 1 in
      Keys (tput (k_table s) p (if n =? 0 then None else Some (Entry (e_key e) n))) (pput (k_phase s) i Released)
  | _, _ => s
  end.
Definition krun (proc : nat -> nat) (l : list kstep) (s : keys) : keys := fold_left (fun s x => kact proc x s) l s.
Definition kinit : keys := Keys (fun _ => None) (fun _ => Before).

(** ** From the service *)

(* What stream.Recv returns; a finite list is followed by waiting *)
Inductive received := Msg (b : bytes) | Eof | Fail.
(* How receiving is: done, waiting for the stream, waiting for the select statement, or panicked *)
Inductive ending := Done | Receiving | Choosing | Crashed.
(* Packets that went to the program, what was put to the leftout channel, errors given to abort *)
Record forwarded := Fwd { f_sent : list bytes; f_left : option bytes; f_aborts : nat; f_end : ending }.

(* grpc.go:361-366 mustBePacket: calls abort, but returns *)
Definition short (b : bytes) : nat := if Nat.ltb (length b) HeaderSize then 1 else 0.
(* grpc.go:341-359 receiveBuffer: buffer and number of aborts; the first components are those so far *)
Fixpoint receive_buffer (buf : bytes) (n : nat) (stream : list received) : option bytes * nat * ending :=
  match stream with
  | [] => (None, n, Receiving)
  | Eof :: _ => (Some buf, n, Done)
  | Fail :: _ => (Some buf, S n, Done)
  | Msg b :: rest =>
      let n := (n + short b)%nat in
      match SetSize b with
      | Ok p => receive_buffer (buf ++ p) n rest
      | _ => (None, n, Crashed)
      end
  end.
(* grpc.go:313-339 receiveForward; choices: whether the packet could be sent (or the context was done) *)
Fixpoint receive_forward (code : Z) (choices : list bool) (sent : list bytes) (n : nat) (stream : list received) {struct stream} : forwarded :=
  match stream with
  | [] => Fwd sent None n Receiving
  | Eof :: _ => Fwd sent None n Done
  | Fail :: _ => Fwd sent None (S n) Done
  | Msg b :: rest =>
      let n := (n + short b)%nat in
      match SetCode code b with
      | Ok p =>
          match choices with
          | [] => Fwd sent None n Choosing
          | true :: choices => receive_forward code choices (sent ++ [p]) n rest
          | false :: _ =>
              match SetSize p with
              | Ok p => let '(lft, n, e) := receive_buffer p n rest in Fwd sent lft n e
              | _ => Fwd sent None n Crashed
              end
          end
      | _ => Fwd sent None n Crashed
      end
  end.

(** ** To the service *)

(* The remote procedure call's result, whether the service got the packet, and whether the context was done afterwards *)
Record rpc := Rpc { r_ok : bool; r_got : bool; r_done : bool }.
(* Packets that the service got, inst.incoming, and whether an error was returned *)
Record handled := Handled { h_got : list bytes; h_incoming : bytes; h_error : bool }.
(* grpc.go:248-270 Handle *)
Definition handle (p : bytes) (r : rpc) (s : handled) : handled :=
  match h_incoming s with
  | [] =>
      let got := if r_got r then h_got s ++ [p] else h_got s in
      if r_ok r then Handled got [] (h_error s)
      else if r_done r then Handled got p (h_error s)
      else Handled got [] true
  | b => Handled (h_got s) (b ++ p) (h_error s)
  end.
(* registry.go:305-340: after an error no packet is handled any more *)
Fixpoint handle_all (l : list (bytes * rpc)) (s : handled) : handled :=
  match l with
  | [] => s
  | (p, r) :: t => if h_error s then s else handle_all t (handle p r s)
  end.
(* grpc.go:278-310 Suspend: what is given to Snapshot (outgoing and incoming buffers); the leftout channel is closed after what
   was put there *)
Definition snapshot_buffers (f : forwarded) (h : handled) : bytes * bytes :=
  (match f_left f with Some b => b | None => [] end, h_incoming h).
