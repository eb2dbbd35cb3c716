(* Storage.v: model of image/filesystem.go (file-backed storage of program and
   instance images), of the storing, mutation and manifest methods of
   image/instance.go and of Program.Store, with a model of what a crash can
   leave on disk. *)
From Coq Require Export String.
From Verif Require Export Manifest.
Local Open Scope Z_scope.

(* Model of the operating system's write-back caching (trusted, not part of
   /repo).  A keyed store: the current value of every key as programs see it,
   the values which the disk may hold for it after a crash (the synced value
   and every value set since), and whether a sync will write it out. *)
Record wbs (K V : Type) := WBS { cur : K -> V; disk : K -> list V; dirty : K -> bool }.
Arguments WBS {K V}. Arguments cur {K V}. Arguments disk {K V}. Arguments dirty {K V}.
(* Set the keys for which f gives a value. *)
Definition wset {K V} (f : K -> option V) (s : wbs K V) : wbs K V :=
  WBS (fun k => match f k with Some v => v | None => cur s k end)
      (fun k => match f k with Some v => v :: disk s k | None => disk s k end)
      (fun k => match f k with Some _ => true | None => dirty s k end).
(* A successful fdatasync writes the dirty keys. *)
Definition wsync {K V} (s : wbs K V) : wbs K V :=
  WBS (cur s) (fun k => if dirty s k then [cur s k] else disk s k) (fun _ => false).
(* A failed one leaves the disk uncertain and marks the keys clean, so that the
   next fdatasync does not write them (Linux behaviour). *)
Definition wfail {K V} (s : wbs K V) : wbs K V := WBS (cur s) (disk s) (fun _ => false).
(* A crash: for every key one of the values the disk may hold; c picks it. *)
Definition survive {K V} (c : K -> nat) (s : wbs K V) : K -> V := fun k => nth (c k) (disk s k) (cur s k).
Definition on_disk {K V} (g : K -> V) : wbs K V := WBS g (fun k => [g k]) (fun _ => false).

(* A file is keyed by byte offset; unwritten bytes read as zero (ftruncate,
   image/filesystem.go:86,178).  The file size is not modelled. *)
Definition file := wbs Z Z.
Definition bytes_at (off : Z) (bs : bytes) : Z -> option Z :=
  fun o => if (o <? off) || (off + len bs <=? o) then None else nth_error bs (Z.to_nat (o - off)).
Definition read_at (off : Z) (n : nat) (f : Z -> Z) : bytes := map (fun i => f (off + Z.of_nat i)) (seq 0 n).
(* A directory is keyed by name; files are numbered, me is the file in focus. *)
Definition dir := wbs string (option nat).
Definition me : nat := 0.
Definition entry (name : string) (v : option nat) : string -> option (option nat) :=
  fun n => if String.eqb name n then Some v else None.

(* image/instance.go:27-34 and image/build.go:31-36 *)
Definition instManifestOffset : Z := 6442450944.  (* 0x180000000 *)
Definition progManifestOffset : Z := 17179869184. (* 0x400000000 *)
Definition stackMagic : Z := 8886662568487363326. (* 0x7b53c485c17322fe *)
(* internal/executable/runtime.go:10-14 *)
Definition StackUsageOffset : Z := 64 + 4832 * 2 + 240.
(* runtime/include/runtime.h:53 GATE_TEXT_ADDR_RESUME; the enter routine's
   address is wag's abi.TextAddrEnter (the value is assumed). *)
Definition TextAddrResume : Z := 16.
Definition TextAddrEnter : Z := 32.

(* image/instance.go:56-65 Instance (dir is nil or the instance directory) *)
Record inst := Inst { man : iman; manDirty : bool; coherent : bool; hasDir : bool; iname : string }.
Definition with_man (i : inst) (m : iman) : inst := Inst m true (coherent i) (hasDir i) (iname i).

(* The instance's file, the instance directory and the open handle, if any *)
Record world := World { wfile : file; wdir : dir; hnd : option inst }.

(* Which system calls of an operation fail; a failing write may have written a
   prefix. *)
Record faults := Faults { f_write : option nat; f_sync : bool; f_link : bool; f_unlink : bool; f_dirsync : bool }.

(* Operations return every world between their system calls, and the result. *)
Definition M := world -> list world * world * res unit.
Definition ret : M := fun w => ([], w, Ok tt).
Definition fail : M := fun w => ([], w, Err).
Definition seqM (a b : M) : M := fun w =>
  match a w with
  | (t, w1, Ok _) => match b w1 with (t', w2, r) => (t ++ t', w2, r) end
  | (t, w1, r) => (t, w1, r)
  end.
Notation "a ;; b" := (seqM a b) (at level 61, right associativity).
Definition sys (g : world -> world * res unit) : M := fun w => let '(w', r) := g w in ([w'], w', r).

Definition set_file (f : file -> file) (w : world) : world := World (f (wfile w)) (wdir w) (hnd w).
Definition set_dir (f : dir -> dir) (w : world) : world := World (wfile w) (f (wdir w)) (hnd w).
Definition set_hnd (h : option inst) (w : world) : world := World (wfile w) (wdir w) h.

(* pwrite(2), fdatasync(2) *)
Definition sys_write (off : Z) (bs : bytes) (fault : option nat) : M := sys (fun w =>
  match fault with
  | None => (set_file (wset (bytes_at off bs)) w, Ok tt)
  | Some k => (set_file (wset (bytes_at off (firstn k bs))) w, Err)
  end).
Definition sys_sync (fault : bool) : M := sys (fun w =>
  if fault then (set_file wfail w, Err) else (set_file wsync w, Ok tt)).
(* image/linkat.go linkTempFile: linkat(2) of the open file; EEXIST is an error
   here, and so is an empty name. *)
Definition sys_link (name : string) (fault : bool) : M := sys (fun w =>
  if fault || String.eqb name "" then (w, Err)
  else match cur (wdir w) name with
       | Some _ => (w, Err)
       | None => (set_dir (wset (entry name (Some me))) w, Ok tt)
       end).
(* unlinkat(2); ENOENT is not an error to the caller. *)
Definition sys_unlink (name : string) (fault : bool) : M := sys (fun w =>
  if fault then (w, Err)
  else match cur (wdir w) name with
       | None => (w, Ok tt)
       | Some _ => (set_dir (wset (entry name None)) w, Ok tt)
       end).
Definition sys_dirsync (fault : bool) : M := sys (fun w =>
  if fault then (set_dir wfail w, Err) else (set_dir wsync w, Ok tt)).
(* Assign to the instance's fields. *)
Definition assign (f : inst -> inst) : M := fun w =>
  ([], set_hnd (match hnd w with Some i => Some (f i) | None => None end) w, Ok tt).
Definition on_inst (k : inst -> M) : M := fun w => match hnd w with Some i => k i w | None => ret w end.

(* image/filesystem.go:185-212 storeInstance *)
Definition storeInstance (name : string) (f : faults) : M :=
  on_inst (fun i =>
    if manDirty i then
      sys_write instManifestOffset (manifest_bytes instanceFileTag (enc_inst (man i))) (f_write f) ;;
      assign (fun i => Inst (man i) false (coherent i) (hasDir i) (iname i))
    else ret) ;;
  sys_sync (f_sync f) ;;
  sys_link name (f_link f) ;;
  sys_dirsync (f_dirsync f) ;;
  assign (fun i => Inst (man i) (manDirty i) (coherent i) true name).

(* image/instance.go:153-172 Store (storage with storeInstanceSupported) *)
Definition Store (name : string) (f : faults) : M := on_inst (fun i =>
  if negb (coherent i) then fail
  else if negb (String.eqb (iname i) "") then fail
  else storeInstance name f).

(* image/instance.go:174-197 Unstore *)
Definition Unstore (f : faults) : M := on_inst (fun i =>
  if String.eqb (iname i) "" then ret
  else
    assign (fun i => Inst (man i) (manDirty i) (coherent i) false "") ;;
    if negb (hasDir i) then ret
    else sys_unlink (iname i) (f_unlink f) ;; sys_dirsync (f_dirsync f)).

(* internal/manifest/manifest.go:51-56 InflateSnapshot and the generated getters *)
Definition snapshot_of (m : iman) : snap := orelse (m_snap m) snap0.
Definition with_snap (m : iman) (s : snap) : iman :=
  IMan (m_text m) (m_stack_size m) (m_stack_usage m) (m_globals m) (m_memory m) (m_max_memory m)
       (m_init m) (m_start m) (m_entry m) (Some s).

(* image/instance.go:221-228 SetFinal, 230-242 SetDebugInfo; snapshot/snapshot.go:13-16 *)
Definition set_flags (i : inst) (fl : Z) : inst :=
  let s := snapshot_of (man i) in
  if s_flags s =? fl then i
  else with_man i (with_snap (man i) (Snap fl (s_trap s) (s_result s) (s_time s) (s_breaks s))).
Definition SetFinal (i : inst) : inst := set_flags i (Z.lor (s_flags (snapshot_of (man i))) 1).
Definition SetDebugInfo (enabled : bool) (i : inst) : inst :=
  let fl := s_flags (snapshot_of (man i)) in
  set_flags i (if enabled then Z.lor fl 2 else Z.ldiff fl 2).
(* image/instance.go:244-250 SetTrap *)
Definition SetTrap (id : Z) (i : inst) : inst :=
  let s := snapshot_of (man i) in
  if s_trap s =? id then i
  else with_man i (with_snap (man i) (Snap (s_flags s) id (s_result s) (s_time s) (s_breaks s))).
(* image/instance.go:252-258 SetResult *)
Definition SetResult (n : Z) (i : inst) : inst :=
  let s := snapshot_of (man i) in
  if s_result s =? n then i
  else with_man i (with_snap (man i) (Snap (s_flags s) (s_trap s) n (s_time s) (s_breaks s))).
(* image/instance.go:260-274 SetBreakpoints *)
Fixpoint same_list (a b : list Z) : bool :=
  match a, b with [], [] => true | x :: a', y :: b' => (x =? y) && same_list a' b' | _, _ => false end.
Definition SetBreakpoints (l : list Z) (i : inst) : inst :=
  let s := snapshot_of (man i) in
  if same_list (s_breaks s) l then i
  else with_man i (with_snap (man i) (Snap (s_flags s) (s_trap s) (s_result s) (s_time s) l)).

(* image/instance.go:279-296 BeginMutation *)
Definition BeginMutation (f : faults) : M := on_inst (fun i =>
  if negb (coherent i) then fail
  else Unstore f ;; assign (fun i => Inst (man i) (manDirty i) false (hasDir i) (iname i))).

(* image/instance.go:37-45 stackVars and 408-437 checkStack *)
Record vars := Vars { v_unused : Z; v_pages : Z; v_time : Z; v_avail : Z; v_text : Z; v_magic : list Z }.
Definition read_vars (g : Z -> Z) : vars :=
  let n off k := unle (read_at off k g) in
  Vars (n 0 4%nat) (n 4 4%nat) (n 8 8%nat) (s32 (n 16 4%nat)) (n 24 8%nat)
       [n 32 8%nat; n 40 8%nat; n 48 8%nat; n 56 8%nat].
Definition checkStack (v : vars) (stackSize : Z) : bool :=
  if v_unused v =? 0 then true
  else negb ((v_unused v =? 2 ^ 32 - 1)
             || (v_unused v <? StackUsageOffset) || (v_unused v >? stackSize) || negb (v_unused v mod 8 =? 0)
             || (v_pages v >? 2147483647 / 65536)
             || (v_avail v >? 16)
             || negb (forallb (Z.eqb stackMagic) (v_magic v))).

(* image/instance.go:299-337 CheckMutation (the file is readable) *)
Definition mutated_man (m : iman) (v : vars) : iman :=
  let s := snapshot_of m in
  let all := v_unused v =? m_stack_size m in
  IMan (if all then 0 else v_text v) (m_stack_size m) (if all then 0 else m_stack_size m - v_unused v)
       (m_globals m) (u32 (v_pages v * 65536)) (m_max_memory m)
       (if all then TextAddrEnter else TextAddrResume) None None
       (Some (Snap (s_flags s) (s_trap s) (s_result s) (v_time v) (s_breaks s))).
Definition CheckMutation : M := on_inst (fun i => fun w =>
  if coherent i then ret w
  else
    let v := read_vars (cur (wfile w)) in
    if negb (checkStack v (m_stack_size (man i))) then fail w
    else if v_unused v =? 0 then
      assign (fun i => Inst (man i) (manDirty i) true (hasDir i) (iname i)) w
    else
      assign (fun i => Inst (mutated_man (man i) v) true true (hasDir i) (iname i)) w).

(* image/filesystem.go:239-240 with unmarshalManifest: the manifest in a file *)
Definition load_manifest (g : Z -> Z) : res iman :=
  do b <- manifest_payload instanceFileTag (read_at instManifestOffset ManifestMaxSize g);
  dec_inst b.

(* image/filesystem.go:218-242 LoadInstance, for a name which refers to the file
   in focus (other files are not modelled) and with no other handle open. *)
Definition LoadInstance (name : string) : M := fun w =>
  match hnd w, cur (wdir w) name with
  | None, Some 0%nat =>
      match load_manifest (cur (wfile w)) with
      | Ok m => ([], set_hnd (Some (Inst m false true true name)) w, Ok tt)
      | Err => fail w
      | Panic => ([], w, Panic)
      end
  | _, _ => ret w
  end.

(* Everything that can happen.  EMutate is a write of the running program to
   its stack, globals or memory (the file handle given out by BeginMutation);
   EEnv* are the effects of other instances sharing the directory. *)
Inductive event :=
| EStore (name : string) (f : faults) | EUnstore (f : faults)
| ESetFinal | ESetDebugInfo (b : bool) | ESetTrap (id : Z) | ESetResult (n : Z) | ESetBreakpoints (l : list Z)
| EBegin (f : faults) | EMutate (off : Z) (bs : bytes) | ECheck
| EClose | ELoad (name : string)
| EEnvLink (name : string) (n : nat) | EEnvUnlink (name : string) | EEnvSync (fault : bool)
| ECrash (cf : Z -> nat) (cd : string -> nat).

Definition running (w : world) : bool := match hnd w with Some i => negb (coherent i) | None => false end.
Definition exec (e : event) : M :=
  match e with
  | EStore name f => Store name f
  | EUnstore f => Unstore f
  | ESetFinal => assign SetFinal
  | ESetDebugInfo b => assign (SetDebugInfo b)
  | ESetTrap id => assign (SetTrap id)
  | ESetResult n => assign (SetResult n)
  | ESetBreakpoints l => assign (SetBreakpoints l)
  | EBegin f => BeginMutation f
  | EMutate off bs => fun w =>
      if running w && (0 <=? off) && (off + len bs <=? instManifestOffset)
      then sys_write off (map u8 bs) None w else ret w
  | ECheck => CheckMutation
  | EClose => fun w => ([], set_hnd None w, Ok tt)
  | ELoad name => LoadInstance name
  | EEnvLink name n => fun w =>
      match cur (wdir w) name, n with
      | None, S _ => sys (fun w => (set_dir (wset (entry name (Some n))) w, Ok tt)) w
      | _, _ => ret w
      end
  | EEnvUnlink name => fun w =>
      match cur (wdir w) name with
      | Some (S _) => sys (fun w => (set_dir (wset (entry name None)) w, Ok tt)) w
      | _ => ret w
      end
  | EEnvSync fault => fun w => sys (fun w => (set_dir (if fault then wfail else wsync) w, Ok tt)) w
  | ECrash cf cd => fun w =>
      ([], World (on_disk (survive cf (wfile w))) (on_disk (survive cd (wdir w))) None, Ok tt)
  end.
Definition after (e : event) (w : world) : world := snd (fst (exec e w)).
Definition result (e : event) (w : world) : res unit := snd (exec e w).
Definition between (e : event) (w : world) : list world := fst (fst (exec e w)).
Fixpoint run (w : world) (l : list event) : world :=
  match l with [] => w | e :: t => run (after e w) t end.

(* image/instance.go:67-151 NewInstance: the world right after it; body is what
   was copied into the file, nothing of which needs to be on disk yet.  And
   image/build.go:321-349 FinishInstance, which leaves manDirty false. *)
Definition fresh_file (body : Z -> Z) : file := WBS body (fun o => [body o; 0]) (fun _ => true).
Definition new_world (m : iman) (body : Z -> Z) (d : dir) : world :=
  World (fresh_file body) d (Some (Inst m true true false "")).
Definition built_world (m : iman) (body : Z -> Z) (d : dir) : world :=
  World (fresh_file body) d (Some (Inst m false true false "")).

(* Programs.  image/filesystem.go:92-113 storeProgram: the program's file and
   the program directory; marsh is the marshaled manifest.  A name that exists
   is accepted. *)
Definition link_program (name : string) (fault : bool) : M := sys (fun w =>
  if fault || String.eqb name "" then (w, Err)
  else match cur (wdir w) name with
       | Some _ => (w, Ok tt)
       | None => (set_dir (wset (entry name (Some me))) w, Ok tt)
       end).
Definition storeProgram (marsh : bytes) (name : string) (f : faults) : M :=
  sys_write progManifestOffset (manifest_bytes programFileTag marsh) (f_write f) ;;
  sys_sync (f_sync f) ;;
  link_program name (f_link f) ;;
  sys_dirsync (f_dirsync f).
(* image/filesystem.go:123-167 loadProgram, up to proto.Unmarshal of the manifest *)
Definition load_program (g : Z -> Z) : res bytes :=
  manifest_payload programFileTag (read_at progManifestOffset ManifestMaxSize g).
