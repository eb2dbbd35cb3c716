(* Extensions.v: model of the composition of services and of their settings: service/extension.go, internal/services/services.go,
   the settings in cmd/gate-server/main/servercmd.go:169-183 and cmd/gate-daemon/main/daemoncmd.go:112-130, and service/grpc/config/config.go:117-124.
   Simplified: an extension's Init registers services, stopping at the first one that cannot be registered, and then succeeds or fails; a settings
   pointer is a number; the names of Go's packages are distinct from each other only if they are so as lists of bytes. *)
From Verif Require Export Registry.

(* service/extension.go:13-17 Extension.  e_config: None if Config is nil or a pointer to struct{} (zeroconf, 19-26). *)
Record extension := Extension { e_name : bytes; e_config : option nat; e_services : list factory; e_ok : bool }.

(* extension.go:48-70 Config.  The map and the names of the duplicates. *)
Definition add_config (s : list (bytes * nat) * list bytes) (e : extension) : list (bytes * nat) * list bytes :=
  match e_config e with
  | None => s
  | Some c => match mget (fst s) (e_name e) with
              | Some _ => (fst s, snd s ++ [e_name e])
              | None => (mset (fst s) (e_name e) c, snd s)
              end
  end.
Definition mdelete {V} (m : list (bytes * V)) (k : bytes) : list (bytes * V) := filter (fun p => negb (beq k (fst p))) m.
Definition Config (l : list extension) : list (bytes * nat) :=
  let (m, dupes) := fold_left add_config l ([], []) in fold_left mdelete dupes m.

Definition grpc_name : bytes := [103; 114; 112; 99].
Definition origin_name : bytes := [111; 114; 105; 103; 105; 110].
Definition catalog_name : bytes := [99; 97; 116; 97; 108; 111; 103].
Definition identity_name : bytes := [105; 100; 101; 110; 116; 105; 116; 121].
Definition revision0 : bytes := [48].

(* servercmd.go:169, 187-190; daemoncmd.go:112, 126-131: what the names service.* of the configuration stand for *)
Definition Settings (grpc origin : nat) (l : list extension) : list (bytes * nat) := mset (mset (Config l) grpc_name grpc) origin_name origin.

(* The registrations of an extension's Init or of a gRPC server (config.go:117-124, grpc.go:131-138), into the registry with index 0 *)
Fixpoint register_all (vn vr : bytes -> bool) (h : heap) (l : list factory) : res heap :=
  match l with [] => Ok h | f :: t => match register vn vr h 0 f false with Ok h' => register_all vn vr h' t | x => x end end.
(* extension.go:72-80 Init *)
Fixpoint init_extensions (vn vr : bytes -> bool) (h : heap) (l : list extension) : res heap :=
  match l with
  | [] => Ok h
  | e :: t => match register_all vn vr h (e_services e) with
              | Ok h' => if e_ok e then init_extensions vn vr h' t else Err
              | x => x
              end
  end.
(* services.go:24-32; servers: those of the gRPC connections, in order, which have been made *)
Definition init_services (vn vr : bytes -> bool) (l : list extension) (servers : list (list factory)) : res heap :=
  match init_extensions vn vr [Reg [] None] l with Ok h => register_all vn vr h (concat servers) | x => x end.

(* origin/connector.go:72-81, catalog/catalog.go:31-40, identity/identity.go:26-36.  o, c: the new connector and the new catalog *)
Definition origin_factory (o : nat) : factory := Factory o origin_name revision0 true.
Definition catalog_factory (c : nat) : factory := Factory c catalog_name revision0 true.
Definition identity_factory (i : nat) : factory := Factory i identity_name revision0 true.
(* services.go:34-43: an instance's services.  The new registry and its index. *)
Definition must {A} (r : res A) : res A := match r with Err => Panic | x => x end.
Definition instance_services (vn vr : bytes -> bool) (identity : nat) (h : heap) (o c : nat) : res (heap * nat) :=
  let (h0, r) := clone h 0 in
  do h1 <- must (register vn vr h0 r (origin_factory o) true);
  do h2 <- must (register vn vr h1 r (catalog_factory c) true);
  do h3 <- must (register vn vr h2 r (identity_factory identity) true);
  Ok (h3, r).
(* A server's history: instances are created one after another, with their connectors and catalogs *)
Fixpoint create_instances (vn vr : bytes -> bool) (identity : nat) (h : heap) (l : list (nat * nat)) : res heap :=
  match l with
  | [] => Ok h
  | (o, c) :: t => do x <- instance_services vn vr identity h o c; create_instances vn vr identity (fst x) t
  end.
