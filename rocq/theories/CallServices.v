(* CallServices.v: model of service/catalog/catalog.go and
   service/identity/identity.go (services which answer calls), together with
   the parts of runtime/io.go and service/registry.go which decide when their
   replies are taken and when they are suspended. *)
From Verif Require Export Base Registry.

(* Which of the two services. *)
Inductive svc := Catalog_ | Identity_.

Definition json : bytes := [106; 115; 111; 110].   (* "json" *)

(* The call remembered for a call packet's content.
   service/catalog/catalog.go:87-92 (pendingJSON = 1, pendingError = 2);
   service/identity/identity.go:97-101. *)
Definition call_of (s : svc) (content : bytes) : Z :=
  match s with
  | Catalog_ => if beq content json then 1 else 2
  | Identity_ => match content with [] => 0 | b :: _ => b end
  end.

(* The state saved at suspension: catalog.go:127-133, identity.go:136-142 *)
Definition save (s : svc) (pending : option Z) : bytes :=
  match s, pending with
  | _, None => []
  | Catalog_, Some k => [k]
  | Identity_, Some k => [1; k]
  end.

(* restore: catalog.go:75-81, identity.go:76-85 (flagPending = 1).  pendingNone
   is 0 in the catalog. *)
Definition restore (s : svc) (b : bytes) : option Z :=
  match s, b with
  | _, [] => None
  | Catalog_, k :: _ => if k =? 0 then None else Some k
  | Identity_, f :: t => if Z.land f 1 =? 0 then None else Some (match t with k :: _ => k | [] => 0 end)
  end.

(* The service goroutine (registry.go:277-344 serve) and the I/O loop of one
   run of the program. *)
Record run := Run {
  pend : option Z;        (* the instance's pending call *)
  blocked : bool;         (* serve is in handleCall's select (catalog.go:117-123, identity.go:126-133) *)
  loop_on : bool;         (* the I/O loop has not returned (io.go:112-237) *)
  cancelled : bool;       (* the context has been cancelled *)
  stopped : bool;         (* serve has returned: the instances are in d.stopped *)
  calls : list Z;         (* calls handled so far *)
  replies : list Z        (* calls whose reply the I/O loop has received *)
}.

(* CreateInstance with a snapshot, then Start (catalog.go:83-89,
   identity.go:87-93): a pending call is answered first. *)
Definition start (s : svc) (snapshot : bytes) : run :=
  let p := restore s snapshot in
  Run p (match p with Some _ => true | None => false end) true false false [] [].

Inductive cevent :=
| CCall (k : Z)    (* the loop passes a call packet to serve, which handles it *)
| CTake            (* the loop receives the reply: messageInput *)
| CCancel          (* the context is cancelled *)
| CGiveUp          (* handleCall returns because of ctx.Done() *)
| CEnd             (* the I/O loop returns and closes messageOutput (io.go:78-87) *)
| CStop.           (* serve's range loop ends, serve returns *)

(* None: the step is not possible.  messageInput and messageOutput are
   unbuffered (io.go:70-73): a reply is sent only if the loop receives it. *)
Definition step (r : run) (e : cevent) : option run :=
  match e with
  | CCall k =>
      if loop_on r && negb (blocked r) && negb (stopped r)
      then Some (Run (Some k) true (loop_on r) (cancelled r) (stopped r) (calls r ++ [k]) (replies r)) else None
  | CTake =>
      if loop_on r && blocked r then
        match pend r with
        | Some k => Some (Run None false (loop_on r) (cancelled r) (stopped r) (calls r) (replies r ++ [k]))
        | None => None
        end
      else None
  | CCancel => Some (Run (pend r) (blocked r) (loop_on r) true (stopped r) (calls r) (replies r))
  | CGiveUp =>
      if blocked r && cancelled r
      then Some (Run (pend r) false (loop_on r) (cancelled r) (stopped r) (calls r) (replies r)) else None
  | CEnd => if loop_on r then Some (Run (pend r) (blocked r) false (cancelled r) (stopped r) (calls r) (replies r)) else None
  | CStop =>
      if negb (loop_on r) && negb (blocked r) && negb (stopped r)
      then Some (Run (pend r) (blocked r) (loop_on r) (cancelled r) true (calls r) (replies r)) else None
  end.

Fixpoint steps (r : run) (es : list cevent) : option run :=
  match es with [] => Some r | e :: t => match step r e with Some r' => steps r' t | None => None end end.

(* The state saved for the service by the registry (Registry.v) when the
   program was started with state [old] and the instance returns [new]. *)
Definition saved_state (old new : bytes) : bytes :=
  match StartServing (fun _ => Some (Factory 0 [] [] true)) [([], old)] with
  | Ok (s, _) => match Suspend s (fun _ => new) with (_, b) :: _ => b | [] => [] end
  | _ => []
  end.
