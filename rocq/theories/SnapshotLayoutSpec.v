(* SnapshotLayoutSpec.v: what it means for a manifest to describe a module, stated with the
   pieces of the module in order and nothing else. *)
From Verif Require Import SnapshotLayout SnapshotSpec.

(* A module as the sequence of its pieces; an absent section is an empty piece.  The export
   section may be wrapped in a custom section, in which case wrapframe is the custom
   section's frame and name.  custom is everything after the data section. *)
Record parts := {
  header : bytes;
  type_ : bytes; import_ : bytes; function_ : bytes; table_ : bytes;
  memory_ : bytes; global_ : bytes; snapshot_ : bytes;
  wrapframe : bytes; export_ : bytes; start_ : bytes; element_ : bytes; code_ : bytes;
  buffer_ : bytes; stack_ : bytes; data_ : bytes; custom : bytes
}.

Definition pieces (p : parts) : list bytes :=
  [header p; type_ p; import_ p; function_ p; table_ p; memory_ p; global_ p; snapshot_ p;
   wrapframe p; export_ p; start_ p; element_ p; code_ p; buffer_ p; stack_ p; data_ p; custom p].

Definition flat (p : parts) : bytes := concat (pieces p).

(* The range delimits the bytes [piece] of the module, which come after [before]. *)
Definition delimits (r : range) (before piece : bytes) : Prop :=
  Offset r = len before /\ Length r = len piece.

(* An optional range for a piece that may be absent: nil only if absent, length 0 if
   absent, and delimiting the piece if present. *)
Definition locates (r : option range) (p : parts) (k : nat) : Prop :=
  let before := concat (firstn k (pieces p)) in
  let piece := nth k (pieces p) [] in
  match r with
  | None => piece = []
  | Some r => Length r = len piece /\ (piece <> [] -> Offset r = len before)
  end.

(* The manifest's section table: section id i is the piece with index ix. *)
Definition section_index : list (nat * nat) :=
  [(1, 1); (2, 2); (3, 3); (4, 4); (5, 5); (6, 6); (7, 9); (8, 10); (9, 11); (10, 12); (11, 15)]%nat.

Definition wrap_located (r : option range) (p : parts) : Prop :=
  match wrapframe p with
  | [] => GetLength r = 0
  | _ => exists w, r = Some w /\
      delimits w (concat (firstn 8 (pieces p))) (wrapframe p ++ export_ p)
  end.

(* The manifest describes the module made of these pieces. *)
Definition describes (m : pman) (p : parts) : Prop :=
  length (header p) = 8%nat /\
  length (Sections m) = 12%nat /\
  (forall i k, In (i, k) section_index -> locates (nth i (Sections m) None) p k) /\
  locates (SnapshotSection m) p 7 /\
  wrap_located (ExportSectionWrap m) p /\
  locates (BufferSection m) p 13 /\
  locates (StackSection m) p 14 /\
  ModuleSize m = len (flat p).

(* Every entry of the section table is present (possibly as an empty range), as in the
   manifest of an uploaded program or of one loaded from storage. *)
Definition complete (m : pman) : Prop := forall r, In r (Sections m) -> r <> None.

(* The program's file starts with the module, and the object map follows at the next
   multiple of eight. *)
Definition holds (f : bytes) (p : parts) (objmap : bytes) : Prop :=
  exists pad, f = flat p ++ pad ++ objmap /\ (len (flat p) + len pad) mod 8 = 0 /\ len pad < 8.

(* The pieces that do not depend on the instance's state are the same. *)
Definition same_program (p q : parts) : Prop :=
  header q = header p /\ type_ q = type_ p /\ import_ q = import_ p /\ function_ q = function_ p /\
  table_ q = table_ p /\ export_ q = export_ p /\ element_ q = element_ p /\ code_ q = code_ p /\
  custom q = custom p.

(* The instance's globals, as 64-bit cells at the end of the globals mapping. *)
Definition globals_are (i : instance) (n : nat) (cells : list Z) : Prop :=
  length cells = n /\ Forall (fun c => 0 <= c < 2 ^ 64) cells /\
  exists unused, iglobals i = unused ++ flat_map (le 8) cells.

(* The instance and the buffers are within the limits of the module format. *)
Definition representable (prog : program) (exports : bytes) (i : instance) (bs : buffers) : Prop :=
  10 + len (imemory i) < 2 ^ 32 /\ MemorySizeLimit (man prog) < 2 ^ 48 /\
  len (GlobalTypes (man prog)) < 2 ^ 28 /\
  snap_ok (isnap i) /\ 0 <= Trap (isnap i) /\ 0 <= Result (isnap i) /\ len (Breakpoints (isnap i)) <= 100 /\
  12 + len exports < 2 ^ 32 /\ 11 + len (istack i) < 2 ^ 32 /\ buffers_ok bs.

(* The piece denotes the instance's memory: size and limit. *)
Definition memory_denotes (piece : bytes) (size limit : Z) : Prop :=
  exists limits, is_section 5 (1 :: limits) piece /\
    is_limits (size / 65536) (if limit <? 0 then None else Some (limit / 65536)) limits.

(* ... its contents, at address 0 of memory 0 ... *)
Definition data_denotes (piece memory : bytes) : Prop :=
  exists size, wasm_u32 (len memory) size /\
    is_section 11 ([1] ++ [0] ++ [65; 0; 11] ++ size ++ memory) piece.

(* ... its globals; without globals there is no section ... *)
Definition globals_denote (piece : bytes) (types : list globaltype) (cells : list Z) : Prop :=
  match types with
  | [] => piece = []
  | _ => exists count items, wasm_u32 (len types) count /\ are_globals types cells items /\
      is_section 6 (count ++ items) piece
  end.

(* ... the flags, trap, result, time and breakpoints as the snapshot reader sees them ... *)
Definition snapshot_denotes (piece : bytes) (s : snap) : Prop :=
  exists content, is_custom_section (str "gate.snapshot") content piece /\
    forall rest, ReadSnapshotSection (content ++ rest) = Ok (s, length content, rest).

(* ... and the buffers as the buffer section reader sees them; without buffers there is no
   section. *)
Definition buffers_denote (piece : bytes) (bs : buffers) : Prop :=
  match Services bs, Input bs, Output bs with
  | [], [], [] => piece = []
  | _, _, _ => exists content, is_custom_section (str "gate.buffer") content piece /\
      exists n, loadBufferSection content = Ok (bs, n)
  end.

(* The stack that a snapshot is to contain: of a suspended or final instance its portable
   stack; of a suspended instance which has not run the initial stack; otherwise none. *)
Inductive stack_of (c : code) (i : instance) (suspended : bool) : option bytes -> Prop :=
| stack_none : suspended = false -> ifinal i = false \/ istack i = [] -> stack_of c i suspended None
| stack_real s : suspended = true \/ ifinal i = true -> istack i <> [] ->
    exportStack c (iTextAddr i) (istack i) = Ok s -> stack_of c i suspended (Some s)
| stack_init : suspended = true -> istack i = [] ->
    stack_of c i suspended (Some (putInitStack (istart i) (ientry i))).

Definition stack_denotes (piece : bytes) (s : option bytes) : Prop :=
  match s with
  | None => piece = []
  | Some s => is_custom_section (str "gate.stack") s piece
  end.

(* The export section is hidden in a gate.export custom section while the module represents
   a suspended or final instance, and is plain otherwise. *)
Definition wrapping (p q : parts) (hide : bool) : Prop :=
  if hide then
    wrapframe q <> [] /\
    match wrapframe p with
    | [] => is_custom_section (str "gate.export") (export_ p) (wrapframe q ++ export_ q)
    | w => wrapframe q = w
    end
  else wrapframe q = [].
