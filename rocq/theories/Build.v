(* Build.v: model of the custom section loaders of build/build.go and of the order in which
   server/program.go:57-133 (_buildProgram) drives them while a module is uploaded.

   A module is its sequence of sections.  A custom section is represented by what its loader
   finds in it; a standard section by its id and size.  The wrapped export section is the
   gate.export custom section followed by the export section, which is how the compiler sees
   it (build/build.go:101-108 leaves the payload unread).  The compiler (gate.computer/wag,
   not in the repository) is modelled as: initial sections are read until the code or data
   section, standard sections must have increasing ids, custom sections are handed to the
   loader registered for their name, and a breakpoint is set if and only if the code has an
   instruction at its offset.  Bytes, hashing, memory limits and file handling are not
   modelled here. *)
From Verif Require Export Base.

Inductive custom :=
| CSnapshot (readable : bool) (breakpoints : list Z)   (* gate.snapshot *)
| CExport (length_ : Z)                                (* gate.export: payload length *)
| CBuffer (readable : bool)                            (* gate.buffer *)
| CStack (length_ : Z) (importable : bool)             (* gate.stack *)
| COther.                                              (* any other name *)

Inductive section :=
| Std (id : Z) (size : Z)
| Custom (c : custom).

Definition idExport := 7.
Definition idCode := 10.
Definition idData := 11.

(* The loaders that may be registered for each name (build/build.go:61-119, 233-300, 302-352). *)
Inductive snap_loader := SnapRead | SnapDuplicate | SnapLate.
Inductive buf_loader := BufEarly | BufRead | BufDuplicate | BufLate.
Inductive stack_loader := StackEarly | StackRead | StackDuplicate | StackLate.

(* build/build.go:27-41 Build, and the file state kept by image.Build *)
Record build := {
  snapLoader : snap_loader;
  bufLoader : buf_loader;
  stackLoader : stack_loader;
  snapshot : option (list Z);          (* Snapshot: its breakpoints *)
  exportWrap : option Z;               (* SectionMap.ExportWrap: payload length *)
  exportSize : Z;                      (* SectionMap.Sections[Export].Length *)
  bufferMapped : bool;                 (* SectionMap.Buffer *)
  stackMapped : bool;                  (* SectionMap.Stack *)
  lastId : Z;                          (* last standard section *)
  entryIndex : bool;                   (* entryIndex >= 0 *)
  breakpoints : list Z;                (* breakpoints: those the compiler was asked for *)
  finished : nat                       (* how many times FinishText has been called *)
}.

(* build/build.go:27-56, 61-119: New and InstallEarlySnapshotLoaders *)
Definition new_build : build :=
  {| snapLoader := SnapRead; bufLoader := BufEarly; stackLoader := StackEarly; snapshot := None; exportWrap := None; exportSize := 0;
     bufferMapped := false; stackMapped := false; lastId := 0; entryIndex := false; breakpoints := []; finished := 0 |}.

Definition set_snap (b : build) (l : snap_loader) (s : option (list Z)) : build :=
  {| snapLoader := l; bufLoader := bufLoader b; stackLoader := stackLoader b; snapshot := s; exportWrap := exportWrap b; exportSize := exportSize b;
     bufferMapped := bufferMapped b; stackMapped := stackMapped b; lastId := lastId b; entryIndex := entryIndex b; breakpoints := breakpoints b; finished := finished b |}.

Definition set_loaders (b : build) (s : snap_loader) (f : buf_loader) (k : stack_loader) : build :=
  {| snapLoader := s; bufLoader := f; stackLoader := k; snapshot := snapshot b; exportWrap := exportWrap b; exportSize := exportSize b;
     bufferMapped := bufferMapped b; stackMapped := stackMapped b; lastId := lastId b; entryIndex := entryIndex b; breakpoints := breakpoints b; finished := finished b |}.

Definition set_wrap (b : build) (n : Z) : build :=
  {| snapLoader := snapLoader b; bufLoader := bufLoader b; stackLoader := stackLoader b; snapshot := snapshot b; exportWrap := Some n; exportSize := exportSize b;
     bufferMapped := bufferMapped b; stackMapped := stackMapped b; lastId := lastId b; entryIndex := entryIndex b; breakpoints := breakpoints b; finished := finished b |}.

Definition set_std (b : build) (id n : Z) : build :=
  {| snapLoader := snapLoader b; bufLoader := bufLoader b; stackLoader := stackLoader b; snapshot := snapshot b; exportWrap := exportWrap b;
     exportSize := if id =? idExport then n else exportSize b;
     bufferMapped := bufferMapped b; stackMapped := stackMapped b; lastId := id; entryIndex := entryIndex b; breakpoints := breakpoints b; finished := finished b |}.

Definition set_mapped (b : build) (f k : bool) (n : nat) : build :=
  {| snapLoader := snapLoader b; bufLoader := bufLoader b; stackLoader := stackLoader b; snapshot := snapshot b; exportWrap := exportWrap b; exportSize := exportSize b;
     bufferMapped := f; stackMapped := k; lastId := lastId b; entryIndex := entryIndex b; breakpoints := breakpoints b; finished := n |}.

Definition set_entry (b : build) (e : bool) : build :=
  {| snapLoader := snapLoader b; bufLoader := bufLoader b; stackLoader := stackLoader b; snapshot := snapshot b; exportWrap := exportWrap b; exportSize := exportSize b;
     bufferMapped := bufferMapped b; stackMapped := stackMapped b; lastId := lastId b; entryIndex := e; breakpoints := breakpoints b; finished := finished b |}.

Definition set_breakpoints (b : build) (l : list Z) : build :=
  {| snapLoader := snapLoader b; bufLoader := bufLoader b; stackLoader := stackLoader b; snapshot := snapshot b; exportWrap := exportWrap b; exportSize := exportSize b;
     bufferMapped := bufferMapped b; stackMapped := stackMapped b; lastId := lastId b; entryIndex := entryIndex b; breakpoints := l; finished := finished b |}.

(* What the upload is parameterized with: policy and request (server/program.go:57-87), and
   the code's instruction offsets. *)
Record params := {
  stackSize : Z;                (* Build.StackSize *)
  entryName : bool;             (* an entry function was requested *)
  entryFound : option bool;     (* internal/build ResolveEntryFunc: None is an error, Some true is index >= 0 *)
  instruction : Z -> bool       (* the code section has an instruction at the offset *)
}.

(* internal/executable/runtime.go:10-14 *)
Definition stackUsageOffset : Z := 64 + 4832 * 2 + 240.

(* image/build.go:144-148 FinishText: only its stack size check. *)
Definition finishImageText (p : params) (b : build) (stackUsage : Z) : res build :=
  if stackSize p <? stackUsageOffset + stackUsage then Err
  else Ok (set_mapped b (bufferMapped b) (stackMapped b) (S (finished b))).

(* The loader of a custom section; [rest] is what follows in the stream (only the gate.export
   loader looks at it). *)
Definition load_custom (p : params) (b : build) (c : custom) (rest : list section) : res build :=
  match c with
  | COther => Ok b
  | CSnapshot readable bps =>
      match snapLoader b with
      | SnapRead =>                                        (* build.go:62-78 *)
          let b := set_snap b SnapDuplicate (snapshot b) in
          if readable then Ok (set_snap b SnapDuplicate (Some bps)) else Err
      | SnapDuplicate => Err                               (* build.go:302-306 *)
      | SnapLate => Err                                    (* build.go:340-344 *)
      end
  | CExport length_ =>                                     (* build.go:80-109 *)
      match snapshot b with
      | None => Err
      | Some _ =>
          if length_ <? 2 then Err
          else match rest with
               | Std id _ :: _ => if id =? idExport then Ok (set_wrap b length_) else Err
               | _ => Err
               end
      end
  | CBuffer readable =>
      match bufLoader b with
      | BufEarly => Err                                    (* build.go:111-113 *)
      | BufRead =>                                         (* build.go:234-262 *)
          let b := set_loaders b SnapLate BufDuplicate (stackLoader b) in
          match snapshot b with
          | None => Err
          | Some _ => if readable then Ok (set_mapped b true (stackMapped b) (finished b)) else Err
          end
      | BufDuplicate => Err                                (* build.go:308-312 *)
      | BufLate => Err                                     (* build.go:346-350 *)
      end
  | CStack length_ importable =>
      match stackLoader b with
      | StackEarly => Err                                  (* build.go:115-117 *)
      | StackRead =>                                       (* build.go:264-299 *)
          let b := set_loaders b SnapLate BufLate StackDuplicate in
          match snapshot b with
          | None => Err
          | Some _ =>
              if entryIndex b then Err
              else if length_ >? u32 (u32 (stackSize p) - stackUsageOffset) then Err
              else
                do b <- finishImageText p b length_;
                if importable then Ok (set_mapped b (bufferMapped b) true (finished b)) else Err
          end
      | StackDuplicate => Err                              (* build.go:314-318 *)
      | StackLate => Err                                   (* build.go:352-356 *)
      end
  end.

(* wag compile.LoadInitialSections (not in the repository): everything up to the code or
   data section. *)
Fixpoint load_initial (p : params) (b : build) (l : list section) : res (build * list section) :=
  match l with
  | [] => Ok (b, [])
  | Custom c :: t => do b <- load_custom p b c t; load_initial p b t
  | Std id n :: t =>
      if idCode <=? id then Ok (b, l)
      else if id <=? lastId b then Err
      else load_initial p (set_std b id n) t
  end.

(* wag compile.LoadCustomSections (not in the repository): custom sections up to the next
   standard one. *)
Fixpoint load_customs (p : params) (b : build) (l : list section) : res (build * list section) :=
  match l with
  | Custom c :: t => do b <- load_custom p b c t; load_customs p b t
  | _ => Ok (b, l)
  end.

(* wag compile.LoadCodeSection and LoadDataSection (not in the repository): the section if
   it is next. *)
Definition load_std (id : Z) (b : build) (l : list section) : res (build * list section) :=
  match l with
  | Std i n :: t => if i =? id then Ok (set_std b i n, t) else if i <? id then Err else Ok (b, l)
  | _ => Ok (b, l)
  end.

(* build/build.go:146-193 BindFunctions: the wrapper must end where the export section does,
   and entry functions are hidden by it.  Import binding is not modelled. *)
Definition bindFunctions (p : params) (b : build) : res build :=
  match exportWrap b with
  | Some n =>
      if negb (exportSize b =? n) then Err
      else if entryName p then Err else Ok b
  | None =>
      match entryFound p with
      | None => Err
      | Some e => Ok (set_entry b e)
      end
  end.

Definition maxUint32 : Z := 2 ^ 32 - 1.

(* build/build.go:195-213 CodeConfig: the breakpoints the compiler is asked to set. *)
Definition codeConfig (b : build) : build :=
  match snapshot b with
  | None => b
  | Some bps => set_breakpoints b (filter (fun o => o <=? maxUint32) bps)
  end.

(* build/build.go:215-232 VerifyBreakpoints, after compilation *)
Definition verifyBreakpoints (p : params) (b : build) : res build :=
  match snapshot b with
  | None => Ok b
  | Some bps =>
      if existsb (fun o => o >? maxUint32) bps then Err
      else if forallb (instruction p) (breakpoints b) then Ok b else Err
  end.

(* build/build.go:325-332 FinishImageText *)
Definition finishText (p : params) (b : build) : res build :=
  if stackMapped b then Ok b else finishImageText p b 0.

(* server/program.go:57-133 _buildProgram *)
Definition buildProgram (p : params) (l : list section) : res build :=
  let b := new_build in
  do '(b, l) <- load_initial p b l;
  do b <- bindFunctions p b;
  let b := codeConfig b in
  do '(b, l) <- load_std idCode b l;
  do b <- verifyBreakpoints p b;
  let b := set_loaders b (snapLoader b) BufRead StackRead in            (* InstallSnapshotDataLoaders, build.go:233-300 *)
  do '(b, l) <- load_customs p b l;
  do b <- finishText p b;
  let b := set_loaders b SnapLate BufLate StackLate in                  (* InstallLateSnapshotLoaders, build.go:334-338 *)
  do '(b, l) <- load_std idData b l;
  do '(b, l) <- load_customs p b l;
  match l with
  | [] => Ok b
  | _ => Err
  end.
