(* Access.v: model of server/access.go: default access policies. *)
From Verif Require Export Base Upload.

(* server/access.go:14-24 *)
Definition DefaultMaxModules := 64.
Definition DefaultMaxProcs := 4.
Definition DefaultTotalStorageSize := 256 * 1024 * 1024.
Definition DefaultTotalResidentSize := 64 * 1024 * 1024.
Definition DefaultMaxModuleSize := 32 * 1024 * 1024.
Definition DefaultMaxTextSize := 16 * 1024 * 1024.
Definition DefaultMaxMemorySize := 32 * 1024 * 1024.
Definition DefaultStackSize := 65536.
Definition DefaultTimeResolution := 10 ^ 9 / 100.

(* server/access.go:26-50; services are left out: they are passed on as they are *)
Record resource_policy := ResourcePolicy { MaxModules : Z; MaxProcs : Z; TotalStorageSize : Z; TotalResidentSize : Z }.
Record program_policy := ProgramPolicy { MaxModuleSize : Z; MaxTextSize : Z; MaxStackSize : Z }.
Record instance_policy := InstancePolicy { MaxMemorySize : Z; StackSize : Z; TimeResolution : Z }.
Record access_config := AccessConfig { c_resource : resource_policy; c_program : program_policy; c_instance : instance_policy }.
Definition or_default (x d : Z) : Z := if x =? 0 then d else x.
(* server/access.go:180-194 *)
Definition ConfigureResource (c : access_config) : resource_policy :=
  let p := c_resource c in
  ResourcePolicy (or_default (MaxModules p) DefaultMaxModules) (or_default (MaxProcs p) DefaultMaxProcs)
    (or_default (TotalStorageSize p) DefaultTotalStorageSize) (or_default (TotalResidentSize p) DefaultTotalResidentSize).
(* server/access.go:196-207 *)
Definition ConfigureProgram (c : access_config) : program_policy :=
  let p := c_program c in
  ProgramPolicy (or_default (MaxModuleSize p) DefaultMaxModuleSize) (or_default (MaxTextSize p) DefaultMaxTextSize)
    (or_default (MaxStackSize p) DefaultStackSize).
(* server/access.go:209-220 *)
Definition ConfigureInstance (c : access_config) : instance_policy :=
  let p := c_instance c in
  InstancePolicy (or_default (MaxMemorySize p) DefaultMaxMemorySize) (or_default (StackSize p) DefaultStackSize)
    (or_default (TimeResolution p) DefaultTimeResolution).

(* What the server asks before doing something, and the policies which it passes as pointers, if any *)
Inductive question := QAccess | QProgram | QProgramSource | QInstance | QProgramInstance | QProgramInstanceSource.
Record policies := Policies { p_resource : option resource_policy; p_program : option program_policy; p_instance : option instance_policy }.
(* server/access.go:122-148 NoAccess.  None: errNoAccess *)
Definition NoAccess (q : question) : option policies := None.
(* server/access.go:224-268 PublicAccess *)
Definition PublicAccess (c : access_config) (q : question) : option policies :=
  match q with
  | QAccess => Some (Policies None None None)
  | QProgram => Some (Policies (Some (ConfigureResource c)) (Some (ConfigureProgram c)) None)
  | QProgramSource => Some (Policies (Some (ConfigureResource c)) (Some (ConfigureProgram c)) None)
  | QInstance => Some (Policies (Some (ConfigureResource c)) None (Some (ConfigureInstance c)))
  | QProgramInstance => Some (Policies (Some (ConfigureResource c)) (Some (ConfigureProgram c)) (Some (ConfigureInstance c)))
  | QProgramInstanceSource => Some (Policies (Some (ConfigureResource c)) (Some (ConfigureProgram c)) (Some (ConfigureInstance c)))
  end.
(* Which question the server asks: server/server.go:212 UploadModule, :233 SourceModule, and what of the answer it uses *)
Definition question_of (q : request) : question :=
  match q with Put _ _ _ _ => QProgram | Frame _ _ _ => QProgramInstance | FromHttp _ | FromIpfs _ => QProgramSource end.
Definition used_policy (p : program_policy) : policy := Policy (MaxModuleSize p) (MaxTextSize p).
Section Serving.
Variable gunzip : stream -> option stream.
Variable hash : bytes -> Z.
Variable compiles : bytes -> bool.
Variable text_size : bytes -> Z.
(* server/server.go:207-247: the request isn't served unless authorized *)
Definition serve_authorized (authorize : question -> option policies) (ps : programs) (q : request) : programs * option result :=
  match authorize (question_of q) with
  | Some (Policies _ (Some pol) _) => let '(ps, r, _) := serve gunzip hash compiles text_size (used_policy pol) ps q in (ps, Some r)
  | _ => (ps, None)
  end.
Definition serve_history (authorize : question -> option policies) (l : list request) : programs :=
  fold_left (fun ps q => fst (serve_authorized authorize ps q)) l [].
End Serving.
