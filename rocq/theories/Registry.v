(* Registry.v: model of runtime/service.go (service discovery packets) and
   service/registry.go (registry, discoverer, start and suspension of the
   service instances). *)
From Verif Require Export Base Packet.

(* A service factory, service/registry.go:58-62.  Interface equality of
   factories (map keys) is equality of [fid]. *)
Record factory := Factory { fid : nat; fname : bytes; frev : bytes; fdisc : bool }.

Definition beq (a b : bytes) : bool := if list_eq_dec Z.eq_dec a b then true else false.

(* A Go map[string]V as an association list, newest entry first. *)
Fixpoint mget {V} (m : list (bytes * V)) (k : bytes) : option V :=
  match m with
  | [] => None
  | (k', v) :: t => if beq k k' then Some v else mget t k
  end.
Definition mset {V} (m : list (bytes * V)) (k : bytes) (v : V) : list (bytes * V) := (k, v) :: m.

(* service/registry.go:66-69 Registry: its factories and its parent.  All
   registries live in a list; a pointer is an index. *)
Record registry := Reg { factories : list (bytes * factory); parent : option nat }.
Definition heap := list registry.

(* service/registry.go:107-126 checkString: length 1..127 bytes; the character
   category test is the argument [valid] (Unicode tables are not modelled). *)
Definition checkString (valid : bytes -> bool) (s : bytes) : bool :=
  negb (len s =? 0) && negb (len s >? 127) && valid s.

(* replace element i of a list *)
Fixpoint upd {A} (l : list A) (i : nat) (x : A) : list A :=
  match l, i with
  | [], _ => []
  | _ :: t, O => x :: t
  | h :: t, S k => h :: upd t k x
  end.

(* service/registry.go:83-105 register (and 72-81 Register, MustRegister) *)
Definition register (validName validRev : bytes -> bool) (h : heap) (r : nat) (f : factory) (replace : bool) : res heap :=
  if negb (checkString validName (fname f)) then Err
  else if negb (checkString validRev (frev f)) then Err
  else
    match nth_error h r with
    | None => Panic          (* not a registry *)
    | Some g =>
        if negb replace && match mget (factories g) (fname f) with Some _ => true | None => false end then Err
        else Ok (upd h r (Reg (mset (factories g) (fname f) f) (parent g)))
    end.

(* service/registry.go:128-134 Clone: the new registry's pointer is the next index *)
Definition clone (h : heap) (r : nat) : heap * nat := (h ++ [Reg [] (Some r)], length h).

(* service/registry.go:164-178 lookup.  The loop visits r, its parent, ...; at
   most [length h] registries. *)
Fixpoint lookup_loop (fuel : nat) (h : heap) (r : nat) (name : bytes) : option factory :=
  match fuel with
  | O => None
  | S k =>
      match nth_error h r with
      | None => None
      | Some g =>
          match mget (factories g) name with
          | Some f => Some f
          | None => match parent g with Some q => lookup_loop k h q name | None => None end
          end
      end
  end.
Definition lookup (h : heap) (r : nat) (name : bytes) : option factory := lookup_loop (length h) h r name.

(* service/registry.go:151-162 catalog.  The iteration order over the map does
   not matter as its keys are distinct; here: oldest first. *)
Fixpoint catalog_loop (fuel : nat) (h : heap) (r : nat) (m : list (bytes * bytes)) : list (bytes * bytes) :=
  match fuel with
  | O => m
  | S k =>
      match nth_error h r with
      | None => m
      | Some g =>
          let m := match parent g with Some q => catalog_loop k h q m | None => m end in
          fold_right (fun '(n, f) m => mset m n (if fdisc f then frev f else [])) m (factories g)
      end
  end.
(* The entries of a map, each key once (range over a map). *)
Fixpoint mkeys {V} (seen : list bytes) (m : list (bytes * V)) : list (bytes * V) :=
  match m with
  | [] => []
  | (k, v) :: t => if existsb (beq k) seen then mkeys seen t else (k, v) :: mkeys (k :: seen) t
  end.
(* service/registry.go:138-149 Catalog: the order of the result is not specified *)
Definition Catalog (h : heap) (r : nat) : list (bytes * bytes) :=
  filter (fun '(_, rev) => negb (beq rev [])) (mkeys [] (catalog_loop (length h) h r [])).

(* snapshot/snapshot.go Service and service/registry.go:346-349
   discoveredService *)
Record dsvc := Svc { sname : bytes; sbuf : bytes; sfac : option factory }.
(* service/registry.go:351-357 discoverer *)
Record disc := Disc { services : list dsvc; discovered : list nat }.

(* service/registry.go:373-412 Discover, the loop over newNames.  [look]: the
   registry's lookup at the time of the call.  The discovered map is modified
   also if an error is returned. *)
Fixpoint discover_loop (look : bytes -> option factory) (seen : list nat) (names : list bytes) : list nat * res (list dsvc) :=
  match names with
  | [] => (seen, Ok [])
  | n :: t =>
      match look n with
      | Some f =>
          if fdisc f then
            if existsb (Nat.eqb (fid f)) seen then (seen, Err)
            else
              let '(seen', r) := discover_loop look (fid f :: seen) t in
              (seen', do l <- r; Ok (Svc n [] (Some f) :: l))
          else let '(seen', r) := discover_loop look seen t in (seen', do l <- r; Ok (Svc n [] None :: l))
      | None => let '(seen', r) := discover_loop look seen t in (seen', do l <- r; Ok (Svc n [] None :: l))
      end
  end.

(* the state flag of a service: runtime/service.go:18,23-29, registry.go:406-411 *)
Definition avail (s : dsvc) : Z := match sfac s with Some _ => 1 | None => 0 end.

Definition Discover (look : bytes -> option factory) (d : disc) (names : list bytes) : disc * res (list Z) :=
  let '(seen, r) := discover_loop look (discovered d) names in
  match r with
  | Ok new => (Disc (services d ++ new) seen, Ok (map avail (services d ++ new)))
  | Err => (Disc (services d) seen, Err)
  | Panic => (Disc (services d) seen, Panic)
  end.

(* runtime/service.go:16 *)
Definition maxServices := 256.

(* runtime/service.go:94-113, the loop reading n names *)
Fixpoint read_names (n : nat) (buf : bytes) : res (list bytes) :=
  match n with
  | O => Ok []
  | S k =>
      match buf with
      | [] => Err
      | c :: buf =>
          if (c =? 0) || (c >? 127) then Err
          else if len buf <? c then Err
          else do l <- read_names k (skipn (Z.to_nat c) buf); Ok (firstn (Z.to_nat c) buf :: l)
      end
  end.

(* runtime/service.go:124-134 makeServicesPacket.  The loop storing one flag
   byte per service is written as one copy. *)
Definition makeServicesPacket (domain : Z) (states : list Z) : res bytes :=
  do p <- Make (-1) domain (ServicesHeaderSize + length states);
  do p <- SetSize p;
  do p <- put_at OffsetServicesCount (le 2 (u16 (len states))) p;
  put_at ServicesHeaderSize states p.

(* runtime/service.go:74-122 handleServicesPacket.  make([]string, reqCount)
   panics if reqCount is negative. *)
Definition handleServicesPacket (look : bytes -> option factory) (d : disc) (req : bytes) : disc * res bytes :=
  match
    (do dom <- Domain req;
     if negb (dom =? DomainCall) then Err
     else if len req <? Z.of_nat ServicesHeaderSize then Err
     else
       do cnt <- get_le OffsetServicesCount 2 req;
       let cur := len (services d) in
       let reqCount := if cur + cnt >? maxServices then maxServices - cur else cnt in
       if reqCount <? 0 then Panic
       else read_names (Z.to_nat reqCount) (skipn ServicesHeaderSize req))
  with
  | Ok names =>
      let '(d', r) := Discover look d names in
      (d', do states <- r; makeServicesPacket DomainCall states)
  | Err => (d, Err)
  | Panic => (d, Panic)
  end.

(* service/registry.go:191-207 StartServing: the services of the snapshot
   ([initial]: name, buffer).  A nil buffer and an empty one are the same here. *)
Fixpoint start_loop (look : bytes -> option factory) (seen : list nat) (initial : list (bytes * bytes)) : res (list dsvc * list nat) :=
  match initial with
  | [] => Ok ([], seen)
  | (n, b) :: t =>
      match look n with
      | Some f =>
          if existsb (Nat.eqb (fid f)) seen then Err
          else do ' (l, seen') <- start_loop look (fid f :: seen) t; Ok (Svc n b (Some f) :: l, seen')
      | None => do ' (l, seen') <- start_loop look seen t; Ok (Svc n b None :: l, seen')
      end
  end.

(* A service instance: created by a factory, with a buffer; an entry of the
   instances map without instance is None (service unavailable). *)
Record inst := Inst { ifac : factory; icreated : bytes; ihandled : list bytes }.

Record serving := Serving { dsc : disc; instances : list (nat * option inst) }.

Fixpoint iget (m : list (nat * option inst)) (k : nat) : option (option inst) :=
  match m with
  | [] => None
  | (k', v) :: t => if Nat.eqb k k' then Some v else iget t k
  end.

(* service/registry.go:209-232: instances of the restored services are created
   with their buffers.  [s.Buffer = nil] at line 227 assigns to the loop
   variable only: d.services keeps the buffer. *)
Definition start_instance (i : nat) (s : dsvc) : nat * option inst :=
  (i, match sfac s with Some f => Some (Inst f (sbuf s) []) | None => None end).
Fixpoint start_instances (i : nat) (l : list dsvc) : list (nat * option inst) :=
  match l with [] => [] | s :: t => start_instance i s :: start_instances (S i) t end.
(* service/registry.go:181-256 StartServing, when all CreateInstance and Ready
   calls succeed *)
Definition StartServing (look : bytes -> option factory) (initial : list (bytes * bytes)) : res (serving * list Z) :=
  do ' (l, seen) <- start_loop look [] initial;
  Ok (Serving (Disc l seen) (start_instances 0 l), map avail l).

(* service/registry.go:305-344 serve, one packet received for service code c
   (c < number of services: checkServicePacket), when CreateInstance, Ready,
   Start and Handle succeed. *)
Definition serve_packet (s : serving) (c : nat) (p : bytes) : res serving :=
  match iget (instances s) c with
  | Some (Some i) => Ok (Serving (dsc s) ((c, Some (Inst (ifac i) (icreated i) (ihandled i ++ [p]))) :: instances s))
  | Some None => Ok s
  | None =>
      match nth_error (services (dsc s)) c with
      | None => Panic           (* index out of range, line 311 *)
      | Some d =>
          match sfac d with
          | Some f => Ok (Serving (dsc s) ((c, Some (Inst f [] [p])) :: instances s))
          | None => Ok (Serving (dsc s) ((c, None) :: instances s))
          end
      end
  end.

(* service/registry.go:431-456 Suspend, when the instances' Suspend calls return
   no error; [state i] is the buffer returned by the instance with index i. *)
Fixpoint suspend_loop (m : list (nat * option inst)) (state : nat -> bytes) (i : nat) (l : list dsvc) : list (bytes * bytes) :=
  match l with
  | [] => []
  | s :: t =>
      (sname s,
       match iget m i with
       | Some (Some _) => match state i with [] => sbuf s | b => b end
       | _ => sbuf s
       end) :: suspend_loop m state (S i) t
  end.
Definition Suspend (s : serving) (state : nat -> bytes) : list (bytes * bytes) :=
  suspend_loop (instances s) state 0 (services (dsc s)).
