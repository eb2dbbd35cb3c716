(* Origin.v: model of service/origin/instance.go (accepting connections on
   behalf of a program, shutdown, state). *)
From Verif Require Export Base Varint StreamState.

(* The stream objects of the streams map: made by connect call number k, or
   restored from a snapshot (served by drainRestored). *)
Inductive owner := OConn (k : nat) | ORestored.

(* What a connect call is doing, instance.go:185-270. *)
Inductive phase :=
| PWait                (* first select loop, 193-214 *)
| PReply (id : Z)      (* second select loop, 221-238: the reply has not been sent *)
| PSent (id : Z)       (* reply sent, before the critical section 240-250 *)
| PCancel (id : Z)     (* cancelled, before the critical section *)
| PStream (id : Z)     (* the returned function's transfer, 258-269 *)
| PEnd.

Record org := Org {
  streams : list (Z * owner);    (* map[int32]*stream *)
  accepting : Z;
  replying : bool;
  shutting : bool;
  waited : bool;                 (* shutdown has finished waiting, 296-303 *)
  token : bool;                  (* the wakeup channel (capacity 1) has an element *)
  conns : list phase;
  sent : list Z                  (* ids in the replies the program has received *)
}.

Fixpoint sget (m : list (Z * owner)) (id : Z) : option owner :=
  match m with [] => None | (i, o) :: t => if i =? id then Some o else sget t id end.
Definition sdel (m : list (Z * owner)) (id : Z) : list (Z * owner) := filter (fun x => negb (fst x =? id)) m.

(* instance.go:198-199: for id = 0; inst.streams[id] != nil; id++ *)
Fixpoint lowest (fuel : nat) (m : list (Z * owner)) (id : Z) : Z :=
  match fuel with
  | O => id
  | S k => match sget m id with Some _ => lowest k m (id + 1) | None => id end
  end.
Definition free_id (m : list (Z * owner)) : Z := lowest (length m) m 0.

Fixpoint set_nth {A} (l : list A) (i : nat) (x : A) : list A :=
  match l, i with
  | [], _ => []
  | _ :: t, O => x :: t
  | h :: t, S k => h :: set_nth t k x
  end.

Inductive oevent :=
| EAccept                     (* the program calls accept: Handle, 124-139 *)
| EConnect                    (* Connect is called *)
| EWake (k : nat)             (* connect k receives from wakeup *)
| EGiveUp (k : nat)           (* connect k: connector closed or its context is done *)
| ESend (k : nat)             (* the program's side receives connect k's reply *)
| EGuard (k : nat)            (* the critical section of connect k, 240-252 *)
| EDone (k : nat) (live : bool)  (* the transfer function of connect k returns *)
| EDrained (id : Z) (live : bool)  (* drainRestored: the transfer of a restored stream returns,
                                 274-293; live: because its context was cancelled, which
                                 serve does when it returns (registry.go:283-284) *)
| EShut                       (* Shutdown or Suspend is called: shutting is set *)
| EWaited.                    (* shutdown's condition wait is over; wakeup is poked *)

(* poke: chan.go:7-12 *)
Definition ostep (s : org) (e : oevent) : option org :=
  match e with
  | EAccept =>
      (* int32 overflow makes n <= 0: an error *)
      if s32 (accepting s + 1) >? 0
      then Some (Org (streams s) (accepting s + 1) (replying s) (shutting s) (waited s) true (conns s) (sent s))
      else None
  | EConnect => Some (Org (streams s) (accepting s) (replying s) (shutting s) (waited s) (token s) (conns s ++ [PWait]) (sent s))
  | EWake k =>
      if token s then
        match nth_error (conns s) k with
        | Some PWait =>      (* 194-206 *)
            if (accepting s >? 0) && negb (replying s) && negb (shutting s) then
              let id := free_id (streams s) in
              Some (Org ((id, OConn k) :: streams s) (accepting s) true (shutting s) (waited s) false (set_nth (conns s) k (PReply id)) (sent s))
            else if shutting s then
              Some (Org (streams s) (accepting s) (replying s) (shutting s) (waited s) false (set_nth (conns s) k PEnd) (sent s))
            else Some (Org (streams s) (accepting s) (replying s) (shutting s) (waited s) false (conns s) (sent s))
        | Some (PReply id) =>   (* 228-231 *)
            if shutting s then
              Some (Org (streams s) (accepting s) (replying s) (shutting s) (waited s) false (set_nth (conns s) k (PCancel id)) (sent s))
            else Some (Org (streams s) (accepting s) (replying s) (shutting s) (waited s) false (conns s) (sent s))
        | _ => None
        end
      else None
  | EGiveUp k =>
      match nth_error (conns s) k with
      | Some PWait => Some (Org (streams s) (accepting s) (replying s) (shutting s) (waited s) (token s) (set_nth (conns s) k PEnd) (sent s))
      | Some (PReply id) => Some (Org (streams s) (accepting s) (replying s) (shutting s) (waited s) (token s) (set_nth (conns s) k (PCancel id)) (sent s))
      | _ => None
      end
  | ESend k =>
      match nth_error (conns s) k with
      | Some (PReply id) => Some (Org (streams s) (accepting s) (replying s) (shutting s) (waited s) (token s) (set_nth (conns s) k (PSent id)) (sent s ++ [id]))
      | _ => None
      end
  | EGuard k =>
      match nth_error (conns s) k with
      | Some (PSent id) => Some (Org (streams s) (accepting s - 1) false (shutting s) (waited s) true (set_nth (conns s) k (PStream id)) (sent s))
      | Some (PCancel id) => Some (Org (sdel (streams s) id) (accepting s) false (shutting s) (waited s) true (set_nth (conns s) k PEnd) (sent s))
      | _ => None
      end
  | EDone k live =>
      match nth_error (conns s) k with
      | Some (PStream id) =>
          Some (Org (if negb live && negb (shutting s) then sdel (streams s) id else streams s)
                    (accepting s) (replying s) (shutting s) (waited s) (token s) (set_nth (conns s) k PEnd) (sent s))
      | _ => None
      end
  | EDrained id _ =>
      match sget (streams s) id with
      | Some ORestored =>
          Some (Org (if shutting s then streams s else sdel (streams s) id)
                    (accepting s) (replying s) (shutting s) (waited s) (token s) (conns s) (sent s))
      | _ => None
      end
  | EShut => Some (Org (streams s) (accepting s) (replying s) true (waited s) (token s) (conns s) (sent s))
  | EWaited =>
      if shutting s && negb (replying s) && negb (waited s)
      then Some (Org (streams s) (accepting s) (replying s) (shutting s) true true (conns s) (sent s)) else None
  end.

Fixpoint orun (s : org) (es : list oevent) : option org :=
  match es with [] => Some s | e :: t => match ostep s e with Some s' => orun s' t | None => None end end.

(* The instance after CreateInstance: instance.go:36-43, 57-106. *)
Definition ostart (restored : list Z) (acc : Z) : org :=
  Org (map (fun id => (id, ORestored)) restored) acc false false false (acc >? 0) [] [].

(* instance.go:57-106 restore: pending accepts, and the streams' states by id.
   maxSend: inst.Service.MaxSendSize, bufsize: inst.BufSize. *)
Fixpoint restore_loop (fuel : nat) (n : Z) (input : bytes) (maxSend bufsize : Z) (m : list (Z * (State * State))) : res (list (Z * (State * State))) :=
  if n <=? 0 then Ok m
  else
    match fuel with
    | O => Err
    | S k =>
        do ' (id, input) <- Scan input;
        do ' (r, w, input) <- StreamUnmarshal input maxSend bufsize;
        if existsb (fun x => fst x =? id) m then Err
        else restore_loop k (n - 1) input maxSend bufsize (m ++ [(id, (r, w))])
    end.
(* Each iteration consumes input, so its length is enough fuel. *)
Definition restoreState (input : bytes) (maxSend bufsize : Z) : res (Z * list (Z * (State * State))) :=
  match input with
  | [] => Ok (0, [])
  | _ =>
      do ' (acc, input) <- Scan input;
      match input with
      | [] => Ok (acc, [])
      | _ =>
          do ' (n, input) <- Scan input;
          do m <- restore_loop (length input) n input maxSend bufsize [];
          Ok (acc, m)
      end
  end.

(* instance.go:318-346 Suspend after shutdown: the streams in the order of the
   map iteration.  The buffer has the computed size (make, 334). *)
Fixpoint suspend_size (m : list (Z * (State * State))) : res Z :=
  match m with
  | [] => Ok 0
  | (id, (r, w)) :: t => do a <- Len id; do b <- StreamMarshaledSize r w; do c <- suspend_size t; Ok (a + b + c)
  end.
Fixpoint suspend_put (m : list (Z * (State * State))) (dest : bytes) : res (bytes * bytes) :=
  match m with
  | [] => Ok ([], dest)
  | (id, (r, w)) :: t =>
      do ' (a, dest) <- Put dest id;
      do ' (b, dest) <- StreamMarshal r w dest;
      do ' (c, dest) <- suspend_put t dest;
      Ok (a ++ b ++ c, dest)
  end.
Definition suspendState (acc : Z) (m : list (Z * (State * State))) : res bytes :=
  let n := s32 (len m) in
  if (acc =? 0) && (n =? 0) then Ok []
  else
    do a <- Len acc;
    do size <- (if n >? 0 then do b <- Len n; do c <- suspend_size m; Ok (a + (b + c)) else Ok a);
    do ' (w1, dest) <- Put (repeat 0 (Z.to_nat size)) acc;
    if n >? 0 then
      do ' (w2, dest) <- Put dest n;
      do ' (w3, dest) <- suspend_put m dest;
      Ok (w1 ++ w2 ++ w3 ++ dest)
    else Ok (w1 ++ dest).
