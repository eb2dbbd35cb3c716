(* ServerSpec.v: what C30 and C31 say about the server. *)
From Verif Require Export Server.

(* ---- C30 ---- *)

(* The references to programs that a request has. *)
Definition held (g : stage) : list nat :=
  match g with
  | SUse _ o _ | SStart _ o | SDrive _ o | SResume _ o | SSnap _ _ _ _ o | SHold o => [o]
  | SReg o _ l => o :: l
  | SDelete _ l | SUnref l => l
  | _ => []
  end.
(* All references: of the server's program map, of accounts that have pinned the program, of
   instances, and of requests and running instances. *)
Definition holders (s : st) : list nat :=
  map snd (progs s) ++ map (fun x => snd (fst x)) (pins s) ++ map snd (insts s) ++ flat_map held (threads s).

(* The reference counts are exact, and the images closed are exactly those nobody refers to. *)
Definition exact (s : st) : Prop :=
  (forall o b, nth_error (objs s) o = Some b ->
     refs b = Z.of_nat (count_occ Nat.eq_dec (holders s) o) /\ (opened b = true <-> In o (holders s))) /\
  (forall o, In o (holders s) -> exists b, nth_error (objs s) o = Some b).

(* The step is the failure of an instance to start. *)
Definition start_fails (s : st) (e : event) : Prop :=
  exists t n o, e = ERun t CFail /\ nth_error (threads s) t = Some (SStart n o).
Inductive reach (s0 : st) : st -> Prop :=
| RInit : reach s0 s0
| RStep s e s' : reach s0 s -> ~ start_fails s e -> step s e = Ok s' -> reach s0 s'.

(* ---- C31 ---- *)

(* What the history (latest first) says: the tags of the module if the principal has it pinned;
   the instance that the principal has under an id. *)
Fixpoint pinned (h : list hev) (p m : Z) : option (list Z) :=
  match h with
  | [] => None
  | HPin p' m' ts :: t =>
      if (p' =? p) && (m' =? m)
      then match ts, pinned t p m with [], Some old => Some old | _, _ => Some ts end
      else pinned t p m
  | HUnpin p' m' true :: t => if (p' =? p) && (m' =? m) then None else pinned t p m
  | HClosed :: _ => None
  | _ :: t => pinned t p m
  end.
Fixpoint owns (h : list hev) (p i : Z) : option nat :=
  match h with
  | [] => None
  | HLaunch p' i' _ n :: t => if (p' =? p) && (i' =? i) then Some n else owns t p i
  | HGone n :: t => match owns t p i with Some k => if Nat.eqb k n then None else Some k | None => None end
  | HClosed :: _ => None
  | _ :: t => owns t p i
  end.
(* The principal has supplied the module: sent its contents, made it as a snapshot of its own
   instance, or (the server's owner) found it in storage at startup. *)
Definition supplied (h : list hev) (p m : Z) : Prop :=
  In (HSupplied p m) h \/ In (HStored p m) h \/ exists i, In (HSnap p i m) h.

(* An event is right after the history before it. *)
Definition is_some {A} (o : option A) : bool := match o with Some _ => true | None => false end.
Definition right (h : list hev) (e : hev) : Prop :=
  match e with
  | HInfo p m r => r = pinned h p m /\ (r <> None -> supplied h p m)
  | HContent p m ok => ok = is_some (pinned h p m) /\ (ok = true -> supplied h p m)
  | HNew p m ok => ok = is_some (pinned h p m) /\ (ok = true -> supplied h p m)
  | HUnpin p m ok => ok = is_some (pinned h p m)
  | HModules p l => NoDup (map fst l) /\ forall m ts, In (m, ts) l <-> pinned h p m = Some ts
  | HPin p m _ => supplied h p m
  | HLaunch p i m n => owns h p i = None /\ supplied h p m /\ forall p' i' m', ~ In (HLaunch p' i' m' n) h
  | HInst p i r => r = owns h p i /\ (forall n, r = Some n -> exists m, In (HLaunch p i m n) h)
  | HSnap p i m => exists n, In (HInst p i (Some n)) h
  | _ => True
  end.
Fixpoint all_right (h : list hev) : Prop :=
  match h with [] => True | e :: t => right t e /\ all_right t end.
