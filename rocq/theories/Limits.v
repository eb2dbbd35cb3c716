(* Limits.v: how the memory limit and the time mask of an instance are computed
   (build/build.go, image/instance.go, image/build.go, runtime/process.go), and the
   entry function resolution at build time and at run time (internal/build/,
   image/program.go, internal/manifest/manifest.go). *)
From Verif Require Export Base.

Definition wasmPage : Z := 65536.

(* build.go:383-386: (size + mask) &^ mask *)
Definition alignMemorySize (size : Z) : Z := (size + (wasmPage - 1)) / wasmPage * wasmPage.
(* build.go:130-142 SetMaxMemorySize: limit is the module's, negative if there is
   none; initial is the module's initial memory size. *)
Definition SetMaxMemorySize (limit initial maxMemorySize : Z) : res Z :=
  let m := if (0 <=? limit) && (limit <? maxMemorySize) then limit else maxMemorySize in
  let a := alignMemorySize m in
  if a <? initial then Err else Ok a.
(* instance.go:439-447 maxInstanceMemory *)
Definition maxInstanceMemory (limit memorySize n : Z) : res Z :=
  let n := if (0 <=? limit) && (limit <? n) then limit else n in
  if (0 <=? n) && (n <? memorySize) then Err else Ok n.
(* server/program.go:83-88, build.go:372-376, image/build.go:336-366: the limit of an instance
   that is created while its module is uploaded; image/build.go:355 and
   process.go:193 truncate it to 32 bits. *)
Definition upload_memory (limit initial policy : Z) : res Z :=
  do a <- SetMaxMemorySize limit initial policy;
  do n <- maxInstanceMemory limit initial a; Ok (u32 n).
(* server.go:330,427, image/instance.go:67-73,143: of an instance that is created from a
   known module. *)
Definition known_memory (limit initial policy : Z) : res Z :=
  do n <- maxInstanceMemory limit initial policy; Ok (u32 n).

(* process.go:176-179: resolutions are in nanoseconds.  bits.Len32(n) is the number of
   bits of n; the mask is sent as 32 bits (line 197). *)
Definition second : Z := 1000000000.
Definition bits_len (n : Z) : Z := if n <=? 0 then 0 else Z.log2 n + 1.
Definition effective_resolution (reso : Z) : Z := if (reso <=? 0) || (second <? reso) then second else reso.
Definition timeMask (reso : Z) : Z := u32 (Z.lnot (Z.shiftl 1 (bits_len (u32 (effective_resolution reso))) - 1)).

(* ---- entry functions ---- *)

(* An export: name, function index, and whether its type is suitable for entry
   (binding.IsEntryFuncType). *)
Definition name := bytes.
Fixpoint name_eqb (a b : name) : bool :=
  match a, b with [], [] => true | x :: a, y :: b => (x =? y) && name_eqb a b | _, _ => false end.
Record export := Export { ename : name; eindex : nat; eentry : bool }.
Definition start_name : name := [95; 115; 116; 97; 114; 116].   (* _start *)
Record module := Module {
  exports : list export;
  snapshot : bool;        (* there is a gate.snapshot section *)
  wrapped : bool;         (* the export section is wrapped in a gate.export section *)
  stack : Z;              (* stack usage: size of the gate.stack contents *)
}.
Fixpoint find_export (l : list export) (n : name) : option export :=
  match l with [] => None | e :: t => if name_eqb (ename e) n then Some e else find_export t n end.

(* internal/build/resolve.go:17-52 ResolveEntryFunc; None is index -1 *)
Definition build_resolve (m : module) (n : name) (started : bool) : res (option nat) :=
  let start := if started then None else find_export (exports m) start_name in
  match n with
  | [] => match start with
          | Some e => Ok (if eentry e then Some (eindex e) else None)
          | None => Ok None
          end
  | _ =>
      match start with
      | Some _ => Err
      | None =>
          if name_eqb n start_name then Ok None
          else match find_export (exports m) n with
               | Some e => if eentry e then Ok (Some (eindex e)) else Err
               | None => Err
               end
      end
  end.
(* manifest.go:15-31 InitEntryFuncs: EntryIndexes, and the domain of EntryAddrs *)
Definition entry_indexes (m : module) : list export := filter eentry (exports m).
(* image/program.go:39-72 *)
Definition prog_resolve (m : module) (n : name) (started : bool) : res (option nat) :=
  let start := if snapshot m || started then None else find_export (entry_indexes m) start_name in
  match n with
  | [] => Ok (match start with Some e => Some (eindex e) | None => None end)
  | _ =>
      match start with
      | Some _ => Err
      | None =>
          if name_eqb n start_name then Ok None
          else match find_export (entry_indexes m) n with
               | Some e => Ok (Some (eindex e))
               | None => Err
               end
      end
  end.
(* manifest.go:33-47 Program.EntryFunc: panics if the index is unknown *)
Definition EntryFunc (m : module) (index : option nat) : res (option nat) :=
  match index with
  | None => Ok None
  | Some i => if existsb (fun e => Nat.eqb (eindex e) i) (entry_indexes m) then Ok (Some i) else Panic
  end.
(* build.go:146-192 BindFunctions and image/build.go:343-346,357: launching while
   uploading *)
Definition upload_launch (m : module) (n : name) : res (option nat) :=
  do index <- (if wrapped m then match n with [] => Ok None | _ => Err end
               else build_resolve m n (snapshot m));
  match index with
  | Some _ => if negb (stack m =? 0) then Err else EntryFunc m index
  | None => EntryFunc m index
  end.
(* server.go:325-331 and image/instance.go:81-88,145: launching a known module *)
Definition known_launch (m : module) (n : name) : res (option nat) :=
  do index <- prog_resolve m n false;
  match index with
  | Some _ => if negb (stack m =? 0) then Err else EntryFunc m index
  | None => EntryFunc m index
  end.
