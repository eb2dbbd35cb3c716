(* ImageFiles.v: the files of program and instance images: what Build, NewInstance, Snapshot, storing and loading put
   where (image/build.go, image/instance.go, image/snapshot.go, image/memory.go, image/objectmap.go).

   A file is a function from offsets to bytes; it's initially sparse (ftruncate), i.e. zero.  Writes to shared mappings
   are writes to the file.  Pages are 4096 bytes.  System call failures are left out. *)
From Verif Require Export Base.
Local Open Scope Z_scope.

Definition file := Z -> Z.
Definition fresh : file := fun _ => 0.
(* image/copyfilerange.go:15-41, io.Copy of a section *)
Definition copyRange (src : file) (off1 : Z) (dst : file) (off2 len : Z) : file :=
  fun x => if (off2 <=? x) && (x <? off2 + len) then src (off1 + (x - off2)) else dst x.
(* WriteAt, or storing to a mapping *)
Definition writeAt (f : file) (off : Z) (b : list Z) : file :=
  fun x => if (off <=? x) && (x <? off + Z.of_nat (length b)) then nth (Z.to_nat (x - off)) b 0 else f x.

(* image/instance.go:451-455 *)
Definition align8 (n : Z) : Z := (n + 7) / 8 * 8.
Definition alignPage (n : Z) : Z := (n + 4095) / 4096 * 4096.

(* image/build.go:30-37 *)
Definition progTextOffset : Z := 0.
Definition progGlobalsOffset : Z := 4294967296.
Definition progModuleOffset : Z := 8589934592.
Definition progManifestOffset : Z := 17179869184.
(* image/instance.go:28-31 *)
Definition instManifestOffset : Z := 6442450944.
(* internal/executable/stack.go *)
Definition StackVarsSize : Z := 64.
Definition StackUsageOffset : Z := 64 + 4832 * 2 + 240.

(* internal/manifest Program, the sizes *)
Record pman := PMan {
  TextAddr : Z; TextSize : Z; StackUsage : Z; GlobalsSize : Z; MemorySize : Z; MemoryDataSize : Z; ModuleSize : Z; CallSitesSize : Z; FuncAddrsSize : Z }.
(* image/program.go Program *)
Record program := Program { pm : pman; pf : file }.
(* internal/manifest Instance, the sizes *)
Record iman := IMan { iTextAddr : Z; iStackSize : Z; iStackUsage : Z; iGlobalsSize : Z; iMemorySize : Z }.
(* image/instance.go:56-65 Instance *)
Record instance := Instance { im : iman; inf : file }.

(** ** Building *)

(* What the compiler and the loader of a module produce: text, module, object map (call sites, function addresses),
   stack of a snapshot module (with text address), globals and memory contents (globals at the end of whole pages) *)
Record source := Source {
  s_text : list Z; s_module : list Z; s_sites : list Z; s_addrs : list Z; s_stack : list Z; s_addr : Z;
  s_globals : Z; s_memory : Z; s_data : list Z }.
Definition len (b : list Z) : Z := Z.of_nat (length b).

(* build.go:151-220 FinishText with the contents that are written by then: the text (NewBuild 91-97), module (99-107)
   and object map (objectmap.go:52-60).  Whether the object map is copied to the mapping or written to the file doesn't
   matter. *)
Definition programFile (s : source) : file :=
  let f := writeAt fresh progTextOffset (s_text s) in
  let f := writeAt f progModuleOffset (s_module s) in
  writeAt f (progModuleOffset + align8 (len (s_module s))) (s_sites s ++ s_addrs s).
(* build.go:151-155 *)
Definition stackFits (stackSize : Z) (s : source) : bool := negb (stackSize <? StackUsageOffset + len (s_stack s)).
(* The stack and data buffers are in a mapping (build.go:172-197): the end of the stack at the offset *)
Definition withState (f : file) (off : Z) (s : source) : file := writeAt (writeAt f (off - len (s_stack s)) (s_stack s)) off (s_data s).
(* build.go:250-326 FinishProgram, the manifest *)
Definition programManifest (s : source) : pman :=
  PMan (s_addr s) (u32 (len (s_text s))) (u32 (len (s_stack s))) (u32 (s_globals s)) (u32 (s_memory s))
    (u32 (len (s_data s) - alignPage (s_globals s))) (len (s_module s)) (u32 (len (s_sites s))) (u32 (len (s_addrs s))).
(* Without instance *)
Definition buildProgram (stackSize : Z) (s : source) : res program :=
  if stackFits stackSize s then Ok (Program (programManifest s) (withState (programFile s) progGlobalsOffset s)) else Err.
(* With instance: the state is in the instance file (build.go:178-193), and copied to the program file (250-272);
   build.go:331-370 FinishInstance *)
Definition buildBoth (stackSize : Z) (s : source) : res (program * instance) :=
  if stackFits stackSize s then
    let size := alignPage stackSize in
    let f := withState fresh size s in
    let map := alignPage (len (s_stack s)) in
    let pf := copyRange f (size - map) (programFile s) (progGlobalsOffset - map) (map + alignPage (len (s_data s))) in
    Ok (Program (programManifest s) pf,
        Instance (IMan (s_addr s) (u32 size) (u32 (len (s_stack s))) (u32 (s_globals s)) (u32 (s_memory s))) f)
  else Err.

(** ** Instances of existing programs *)

(* instance.go:67-151 NewInstance (limits and entry functions are in Limits.v) *)
Definition NewInstance (p : program) (maxStackSize : Z) : res instance :=
  let size := alignPage maxStackSize in
  let usage := StackUsage (pm p) in
  let addr := if usage =? 0 then 0 else TextAddr (pm p) in
  if size - StackUsageOffset <? usage then Err else
    let map := alignPage usage in
    let n := map + alignPage (GlobalsSize (pm p)) + alignPage (MemoryDataSize (pm p)) in
    Ok (Instance (IMan addr (u32 size) usage (GlobalsSize (pm p)) (MemorySize (pm p)))
         (copyRange (pf p) (progGlobalsOffset - map) fresh (size - map) n)).

(** ** Storing and loading *)

(* memory.go:162-172 copyInstance, and 73-93 storeInstance: offsets and lengths are computed from 32-bit fields *)
Definition copyInstance (m : iman) (src dst : file) : file :=
  let o1 := u32 (iStackSize m - iStackUsage m) in
  let f := copyRange src o1 dst o1 (iStackUsage m) in
  let o2 := iStackSize m + alignPage (iGlobalsSize m) - iGlobalsSize m in
  copyRange src o2 f o2 (u32 (iGlobalsSize m + iMemorySize m)).
(* memory.go:73-122 and 128-159 (PersistentMemory): to a file system's file, and from it to memory *)
Definition storeLoad (i : instance) : instance := Instance (im i) (copyInstance (im i) (copyInstance (im i) (inf i) fresh) fresh).

(** ** Snapshots *)

(* snapshot.go:24-376: the text, stack, globals and memory areas of the new program's file (the module is in
   SnapshotLayout.v: here it's given) *)
Definition snapshotAreas (old : program) (i : instance) (module map : list Z) (suspended : bool) : program :=
  let m := im i in
  let usage := if suspended then (if iStackUsage m =? 0 then 24 else iStackUsage m) else 0 in
  let real := suspended && negb (iStackUsage m =? 0) in
  let f := writeAt fresh progModuleOffset module in
  let f := writeAt f (progModuleOffset + align8 (len module)) map in
  let f := copyRange (pf old) progTextOffset f progTextOffset (alignPage (TextSize (pm old))) in
  let n := alignPage usage in
  let f := if real then copyRange (inf i) (iStackSize m - n) f (progGlobalsOffset - n) n else f in
  let f := copyRange (inf i) (iStackSize m) f progGlobalsOffset (alignPage (iGlobalsSize m) + iMemorySize m) in
  Program (PMan (if real then iTextAddr m else 0) (TextSize (pm old)) usage (GlobalsSize (pm old)) (iMemorySize m) (iMemorySize m) (len module)
             (CallSitesSize (pm old)) (FuncAddrsSize (pm old))) f.
