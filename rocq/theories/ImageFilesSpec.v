(* ImageFilesSpec.v: what a program is made of, as seen in image files. *)
From Verif Require Export ImageFiles.
Local Open Scope Z_scope.

(* The state from which execution continues: call stack (with the address of the text that its return addresses refer
   to), globals and memory *)
Record state := State { st_addr : Z; st_stack : list Z; st_globals : list Z; st_memory : list Z }.
Fixpoint bytesFrom (f : file) (off : Z) (n : nat) : list Z :=
  match n with O => [] | S k => f off :: bytesFrom f (off + 1) k end.
Definition bytesAt (f : file) (off n : Z) : list Z := bytesFrom f off (Z.to_nat n).
(* The program's: the stack is before, the memory after the globals.  The globals are at the end of their pages. *)
Definition stateOf (f : file) (addr globals usage globalsSize memorySize : Z) : state :=
  State addr (bytesAt f (globals - usage) usage) (bytesAt f (globals + alignPage globalsSize - globalsSize) globalsSize)
    (bytesAt f (globals + alignPage globalsSize) memorySize).
Definition programState (p : program) : state :=
  stateOf (pf p) (TextAddr (pm p)) progGlobalsOffset (StackUsage (pm p)) (GlobalsSize (pm p)) (MemorySize (pm p)).
(* The instance's: as the loader maps it *)
Definition instanceState (i : instance) : state :=
  stateOf (inf i) (iTextAddr (im i)) (iStackSize (im i)) (iStackUsage (im i)) (iGlobalsSize (im i)) (iMemorySize (im i)).
Definition programText (p : program) : list Z := bytesAt (pf p) progTextOffset (TextSize (pm p)).
Definition programModule (p : program) : list Z := bytesAt (pf p) progModuleOffset (ModuleSize (pm p)).
(* filesystem.go:148-166 loadProgram: where the object map is read *)
Definition programSites (p : program) : list Z := bytesAt (pf p) (progModuleOffset + align8 (ModuleSize (pm p))) (CallSitesSize (pm p)).
Definition programAddrs (p : program) : list Z := bytesAt (pf p) (progModuleOffset + align8 (ModuleSize (pm p)) + CallSitesSize (pm p)) (FuncAddrsSize (pm p)).

(* Limits under which everything fits: text and stack 2 GB, globals and memory 4 GB less a page, module and object map 8 GB *)
Record fits (s : source) : Prop := Fits {
  fi_text : len (s_text s) <= 2 ^ 31;
  fi_stack : len (s_stack s) <= 2 ^ 31 - 2 ^ 16;
  fi_globals : 0 <= s_globals s;
  fi_memory : 0 <= s_memory s /\ alignPage (s_globals s) + s_memory s < 2 ^ 32;
  (* the data buffer contains the globals' pages and some of the memory *)
  fi_data : alignPage (s_globals s) <= len (s_data s) <= alignPage (s_globals s) + s_memory s;
  fi_module : len (s_module s) + len (s_sites s) + len (s_addrs s) + 8 <= 2 ^ 33;
  fi_map : len (s_sites s) < 2 ^ 32 /\ len (s_addrs s) < 2 ^ 32;
  (* a stack has an address *)
  fi_addr : s_stack s = [] -> s_addr s = 0;
  fi_pages : s_memory s mod 65536 = 0;
}.
(* The state that a source describes: data is followed by zeros *)
Definition sourceState (s : source) : state :=
  let data := s_data s ++ repeat 0 (Z.to_nat (alignPage (s_globals s) + s_memory s - len (s_data s))) in
  State (s_addr s) (s_stack s)
    (firstn (Z.to_nat (s_globals s)) (skipn (Z.to_nat (alignPage (s_globals s) - s_globals s)) data))
    (skipn (Z.to_nat (alignPage (s_globals s))) data).

(* Histories of images of a program between executions: created as an instance of a program, stored and loaded again, made
   into a snapshot, instantiated again, any number of times *)
Inductive image := AProgram (p : program) | AnInstance (i : instance).
Definition imageState (x : image) : state := match x with AProgram p => programState p | AnInstance i => instanceState i end.
Inductive becomes : image -> image -> Prop :=
| b_new p n i : 0 <= n < 2 ^ 31 -> NewInstance p n = Ok i -> becomes (AProgram p) (AnInstance i)
| b_store i : becomes (AnInstance i) (AnInstance (storeLoad i))
| b_snapshot old i module map :
    GlobalsSize (pm old) = iGlobalsSize (im i) -> len module + len map + 8 <= 2 ^ 33 -> iStackUsage (im i) <> 0 -> 0 <= TextSize (pm old) <= 2 ^ 31 ->
    becomes (AnInstance i) (AProgram (snapshotAreas old i module map true)).
Inductive history : image -> image -> Prop :=
| h_same x : history x x
| h_more x y z : becomes x y -> history y z -> history x z.
(* Images that Build has made, or that an execution has left *)
Definition goodMan (addr usage globals memory : Z) : Prop :=
  0 <= usage <= 2 ^ 31 - 2 ^ 16 /\ 0 <= globals /\ 0 <= memory /\ alignPage globals + memory < 2 ^ 32 /\ memory mod 65536 = 0 /\ (usage = 0 -> addr = 0).
Definition goodProgram (p : program) : Prop :=
  goodMan (TextAddr (pm p)) (StackUsage (pm p)) (GlobalsSize (pm p)) (MemorySize (pm p)) /\
  0 <= MemoryDataSize (pm p) <= MemorySize (pm p) /\
  (* memory that isn't stored is zero *)
  (forall x, alignPage (MemoryDataSize (pm p)) <= x < MemorySize (pm p) -> pf p (progGlobalsOffset + alignPage (GlobalsSize (pm p)) + x) = 0).
Definition goodInstance (i : instance) : Prop :=
  goodMan (iTextAddr (im i)) (iStackUsage (im i)) (iGlobalsSize (im i)) (iMemorySize (im i)) /\
  iStackSize (im i) mod 4096 = 0 /\ StackUsageOffset + iStackUsage (im i) <= iStackSize (im i) <= 2 ^ 31.
Definition good (x : image) : Prop := match x with AProgram p => goodProgram p | AnInstance i => goodInstance i end.
