(* SnapshotLayout.v: model of image.Snapshot (image/snapshot.go:24-376): how the module of
   a snapshot is put together from the old module and the instance's state, and the
   manifest that describes it.

   Simplifications: the program file is the bytes at progModuleOffset onwards (module,
   padding, object map), written strictly sequentially, as the code does (newOff is always
   the end of what has been written, except for the alignment before the object map); the
   copies of the text, native stack, globals and memory to their own file areas are fields
   of the resulting program.  System call failures are not modelled; a copy of a negative
   length or beyond the end of the old file, which copyFileRange (image/copyfilerange.go)
   cannot complete, is an error.  The section writers are those of SnapshotSections.v and
   Stack.v. *)
From Verif Require Export SnapshotSections Stack.

(* internal/manifest ByteRange *)
Record range := Range { Offset : Z; Length : Z }.

(* wag/section IDs *)
Definition sType := 1%nat.
Definition sImport := 2%nat.
Definition sFunction := 3%nat.
Definition sTable := 4%nat.
Definition sMemory := 5%nat.
Definition sGlobal := 6%nat.
Definition sExport := 7%nat.
Definition sStart := 8%nat.
Definition sElement := 9%nat.
Definition sCode := 10%nat.
Definition sData := 11%nat.

(* The fields of internal/manifest Program used or set by image/snapshot.go:24-376. *)
Record pman := {
  Sections : list (option range);
  SnapshotSection : option range;
  ExportSectionWrap : option range;
  BufferSection : option range;
  BufferSectionHeaderLength : Z;
  StackSection : option range;
  ModuleSize : Z;
  GlobalTypes : list globaltype;
  MemorySizeLimit : Z;
  MemorySize : Z;
  MemoryDataSize : Z;
  StackUsage : Z;
  TextAddr : Z;
  ObjectMapSize : Z  (* CallSitesSize + FuncAddrsSize *)
}.

(* image/program.go Program: manifest, object map, and file contents.  pstack is the bytes
   of the program file's stack area, of which the last StackUsage are used. *)
Record program := {
  man : pman;
  pmap : code;
  pfile : bytes;
  ptext : bytes;
  pstack : bytes;
  pglobals : bytes;
  pmemory : bytes
}.

(* image/instance.go Instance: istack is the used part of the native stack, iglobals the
   globals mapping, imemory the MemorySize bytes of memory. *)
Record instance := {
  ifinal : bool;
  istack : bytes;
  iTextAddr : Z;
  istart : option Z;
  ientry : option Z;
  iglobals : bytes;
  imemory : bytes;
  isnap : snap
}.

(* p.Length on a *ByteRange: nil is a nil pointer dereference.  ranges[i].Length *)
Definition length_at (ranges : list (option range)) (i : nat) : res Z :=
  match nth_error ranges i with
  | Some (Some r) => Ok (Length r)
  | _ => Panic
  end.

(* manifest.pb.go ByteRange.GetLength: nil has length 0. *)
Definition GetLength (p : option range) : Z :=
  match p with Some r => Length r | None => 0 end.

(* dest[i] = p *)
Fixpoint set_nth {A} (i : nat) (x : A) (l : list A) : list A :=
  match i, l with
  | _, [] => []
  | O, _ :: t => x :: t
  | S k, h :: t => h :: set_nth k x t
  end.

(* image/snapshot.go:676-685 mapOldSection *)
Definition mapOldSection (off : Z) (dest src : list (option range)) (i : nat) : res (Z * list (option range)) :=
  do n <- length_at src i;
  if n =? 0 then Ok (off, dest)
  else Ok (off + n, set_nth i (Some (Range off n)) dest).

(* image/snapshot.go:687-695 mapNewSection *)
Definition mapNewSection (off : Z) (dest : list (option range)) (length_ : Z) (i : nat) : Z * list (option range) :=
  (off + length_, if length_ =? 0 then dest else set_nth i (Some (Range off length_)) dest).

(* image/copyfilerange.go:15-40 copyFileRange from the old program file: the bytes appended
   to the new file and the advanced old offset (relative to progModuleOffset). *)
Definition copyFileRange (file : bytes) (oldOff n : Z) : res (bytes * Z) :=
  if (n =? 0) then Ok ([], oldOff)
  else if (n <? 0) || (oldOff <? 0) || (len file <? oldOff + n) then Err
  else Ok (firstn (Z.to_nat n) (skipn (Z.to_nat oldOff) file), oldOff + n).

(* image/snapshot.go:175-181: from the table section downwards, the end of the first
   present section. *)
Fixpoint copy_len (newRanges : list (option range)) (ids : list nat) : res Z :=
  match ids with
  | [] => Ok 8
  | i :: t =>
      match nth_error newRanges i with
      | Some (Some r) => if Length r =? 0 then copy_len newRanges t else Ok (Offset r + Length r)
      | _ => Panic
      end
  end.

(* image/snapshot.go:90-117: the export section, wrapped in a custom section if the instance
   is suspended or final (hide).  Results: offset after it, the new ranges,
   exportSectionWrap, exportSectionWrapFrame. *)
Definition mapExportSection (hide : bool) (off : Z) (newRanges oldRanges : list (option range)) (oldWrap : Z)
  : res (Z * list (option range) * option range * bytes) :=
  if hide then
    do n <- length_at oldRanges sExport;
    if n =? 0 then Ok (off, newRanges, None, [])
    else
      do '(wrap, frame) <-
        (if oldWrap =? 0 then
           do frame <- makeExportSectionWrapFrame n;
           Ok (Range off (len frame + n), frame)
         else Ok (Range off oldWrap, []));
      let off := off + Length wrap in
      Ok (off, set_nth sExport (Some (Range (off - n) n)) newRanges, Some wrap, frame)
  else
    do '(off, newRanges) <- mapOldSection off newRanges oldRanges sExport;
    Ok (off, newRanges, None, []).

(* image/snapshot.go:208-229: the bytes written for the export section and the advanced old
   offset; a wrapper is written, copied along or skipped. *)
Definition copyExportSection (oldFile : bytes) (oldOff : Z) (wrap : option range) (wrapFrame : bytes) (oldWrap oldExport : Z)
  : res (bytes * Z) :=
  let frame := if negb (GetLength wrap =? 0) && (oldWrap =? 0) then wrapFrame else [] in
  let copyLen := if negb (GetLength wrap =? 0) && negb (oldWrap =? 0) then oldWrap else oldExport in
  let oldOff := if (GetLength wrap =? 0) && negb (oldWrap =? 0) then oldOff + (oldWrap - oldExport) else oldOff in
  do '(d, oldOff) <- copyFileRange oldFile oldOff copyLen;
  Ok (frame ++ d, oldOff).

Definition initStackSize := 24.                    (* image/stack.go *)
Definition align8 (n : Z) : Z := (n + 7) / 8 * 8.  (* image/instance.go:451 *)
Definition pageSize := 4096.                       (* internal.PageSize; image/instance.go:452 *)
Definition alignPageSize (n : Z) : Z := (n + (pageSize - 1)) / pageSize * pageSize.

(* image/snapshot.go:24-376 Snapshot *)
Definition Snapshot (oldProg : program) (inst : instance) (bs : buffers) (suspended : bool) : res program :=
  let om := man oldProg in
  let oldFile := pfile oldProg in
  (* 33-48 *)
  let real := (suspended || ifinal inst) && negb (len (istack inst) =? 0) in
  let stackUsage :=
    if suspended || ifinal inst then
      if negb (len (istack inst) =? 0) then len (istack inst)
      else if suspended then initStackSize else 0
    else 0 in
  let newTextAddr := if real then iTextAddr inst else 0 in
  (* 58-65 *)
  let globalsLen := 8 * len (GlobalTypes om) in
  if len (iglobals inst) <? globalsLen then Panic else
  let instGlobalsData := skipn (Z.to_nat (len (iglobals inst) - globalsLen)) (iglobals inst) in
  (* 68-88 *)
  let oldRanges := Sections om in
  let newRanges := repeat None 12 in
  let off := 8 in
  do '(off, newRanges) <- mapOldSection off newRanges oldRanges sType;
  do '(off, newRanges) <- mapOldSection off newRanges oldRanges sImport;
  do '(off, newRanges) <- mapOldSection off newRanges oldRanges sFunction;
  do '(off, newRanges) <- mapOldSection off newRanges oldRanges sTable;
  do memorySection <- makeMemorySection (len (imemory inst)) (MemorySizeLimit om);
  let '(off, newRanges) := mapNewSection off newRanges (len memorySection) sMemory in
  do globalSection <- makeGlobalSection (GlobalTypes om) instGlobalsData;
  let '(off, newRanges) := mapNewSection off newRanges (len globalSection) sGlobal in
  do snapshotSection <- makeSnapshotSection (isnap inst);
  let snapshotSectionOffset := off in
  let off := off + len snapshotSection in
  (* 90-117 *)
  let oldWrap := GetLength (ExportSectionWrap om) in
  do '(off, newRanges, exportSectionWrap, exportSectionWrapFrame) <-
    mapExportSection (suspended || ifinal inst) off newRanges oldRanges oldWrap;
  (* 119-142 *)
  do '(off, newRanges) <- mapOldSection off newRanges oldRanges sElement;
  do '(off, newRanges) <- mapOldSection off newRanges oldRanges sCode;
  do '(bufferHeader, bufferSectionSize) <- makeBufferSectionHeader bs;
  let bufferSectionOffset := off in
  let off := off + bufferSectionSize in
  do '(off, stackHeader, stackSectionSize, stackSectionOffset) <-
    (if stackUsage =? 0 then Ok (off, [], 0, 0)
     else
       do h <- makeStackSectionHeader stackUsage;
       Ok (off + (len h + stackUsage), h, len h + stackUsage, off));
  do dataHeader <- makeDataSectionHeader (len (imemory inst));
  let dataSectionSize := len dataHeader + len (imemory inst) in
  let '(off, newRanges) := mapNewSection off newRanges dataSectionSize sData in
  (* 144-168 *)
  do oldMemory <- length_at oldRanges sMemory;
  do oldGlobal <- length_at oldRanges sGlobal;
  do oldExport <- length_at oldRanges sExport;
  do oldStart <- length_at oldRanges sStart;
  do oldData <- length_at oldRanges sData;
  let newModuleSize := ModuleSize om - oldMemory - oldGlobal - GetLength (SnapshotSection om) - oldWrap
    - (if oldWrap =? 0 then oldExport else 0) - oldStart
    - GetLength (BufferSection om) - GetLength (StackSection om) - oldData in
  let newModuleSize := newModuleSize + len memorySection + len globalSection + len snapshotSection
    + GetLength exportSectionWrap in
  do newExport <- (if GetLength exportSectionWrap =? 0 then length_at newRanges sExport else Ok 0);
  let newModuleSize := newModuleSize + newExport + bufferSectionSize + stackSectionSize + dataSectionSize in
  (* 174-190 *)
  do copyLen <- copy_len newRanges [sTable; sFunction; sImport; sType];
  do '(d1, oldOff) <- copyFileRange oldFile 0 copyLen;
  (* 192-206 *)
  let oldOff := oldOff + (oldMemory + oldGlobal) in
  let oldOff := oldOff + GetLength (SnapshotSection om) in
  (* 208-229 *)
  do '(d2, oldOff) <- copyExportSection oldFile oldOff exportSectionWrap exportSectionWrapFrame oldWrap oldExport;
  (* 231-239 *)
  let oldOff := oldOff + oldStart in
  do oldElement <- length_at oldRanges sElement;
  do oldCode <- length_at oldRanges sCode;
  do '(d3, oldOff) <- copyFileRange oldFile oldOff (oldElement + oldCode);
  (* 241-255 *)
  let bufferSection := if bufferSectionSize >? 0 then bufferHeader ++ bufferSectionData bs else [] in
  let oldOff := oldOff + GetLength (BufferSection om) in
  (* 257-277 *)
  do stackSection <-
    (if stackSectionSize >? 0 then
       do stack <- (if real then exportStack (pmap oldProg) (iTextAddr inst) (istack inst)
                    else Ok (putInitStack (istart inst) (ientry inst)));
       Ok (stackHeader ++ stack)
     else Ok []);
  let oldOff := oldOff + GetLength (StackSection om) in
  (* 279-291 *)
  let dataSection := dataHeader ++ imemory inst in
  let oldOff := oldOff + oldData in
  (* 293-298 *)
  do '(d4, oldOff) <- copyFileRange oldFile oldOff (ModuleSize om - oldOff);
  let module := d1 ++ memorySection ++ globalSection ++ snapshotSection ++ d2 ++ d3
    ++ bufferSection ++ stackSection ++ dataSection ++ d4 in
  (* 300-306 *)
  let pad := repeat 0 (Z.to_nat (align8 (len module) - len module)) in
  do '(d5, _) <- copyFileRange oldFile (align8 oldOff) (ObjectMapSize om);
  (* 308-375 *)
  Ok {| man :=
          {| Sections := newRanges;
             SnapshotSection := Some (Range snapshotSectionOffset (len snapshotSection));
             ExportSectionWrap := exportSectionWrap;
             BufferSection := Some (Range bufferSectionOffset bufferSectionSize);
             BufferSectionHeaderLength := len bufferHeader;
             StackSection := Some (Range stackSectionOffset stackSectionSize);
             ModuleSize := newModuleSize;
             GlobalTypes := GlobalTypes om;
             MemorySizeLimit := MemorySizeLimit om;
             MemorySize := len (imemory inst);
             MemoryDataSize := len (imemory inst);
             StackUsage := stackUsage;
             TextAddr := newTextAddr;
             ObjectMapSize := ObjectMapSize om |};
        pmap := pmap oldProg;
        pfile := module ++ pad ++ d5;
        ptext := ptext oldProg;
        (* the page-aligned copy of the instance's stack; nothing is written for the
           synthesized stack, whose area of the new (sparse) file reads as zeros *)
        pstack := if real then istack inst else repeat 0 (Z.to_nat (alignPageSize stackUsage));
        pglobals := iglobals inst;
        pmemory := imemory inst |}.

(* image/program.go:80 NewModuleReader: the module as it can be read, uploaded and hashed. *)
Definition module_of (p : program) : bytes := firstn (Z.to_nat (ModuleSize (man p))) (pfile p).

(* internal/manifest/manifest.pb.go: a stored manifest when loaded again.  A nil element of
   the repeated field sections is encoded as an empty message. *)
Definition reload (m : pman) : pman :=
  {| Sections := map (fun r => match r with Some r => Some r | None => Some (Range 0 0) end) (Sections m);
     SnapshotSection := SnapshotSection m;
     ExportSectionWrap := ExportSectionWrap m;
     BufferSection := BufferSection m;
     BufferSectionHeaderLength := BufferSectionHeaderLength m;
     StackSection := StackSection m;
     ModuleSize := ModuleSize m;
     GlobalTypes := GlobalTypes m;
     MemorySizeLimit := MemorySizeLimit m;
     MemorySize := MemorySize m;
     MemoryDataSize := MemoryDataSize m;
     StackUsage := StackUsage m;
     TextAddr := TextAddr m;
     ObjectMapSize := ObjectMapSize m |}.

(* image/program.go, image/filesystem.go: loading a stored program gives the same file and the manifest
   decoded from its encoding. *)
Definition reloaded (p : program) : program :=
  {| man := reload (man p); pmap := pmap p; pfile := pfile p; ptext := ptext p; pstack := pstack p;
     pglobals := pglobals p; pmemory := pmemory p |}.
