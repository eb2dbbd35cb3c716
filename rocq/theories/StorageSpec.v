(* StorageSpec.v: what it means for storing to be crash-safe. *)
From Verif Require Export Storage.

(* The object handed to the latest accepted Store call: its name, the manifest
   the instance had in memory and the content of its file. *)
Record object := Object { o_name : string; o_man : iman; o_body : Z -> Z }.
Definition offer (e : event) (w : world) (g : option object) : option object :=
  match e, hnd w with
  | EStore name _, Some i =>
      if coherent i && String.eqb (iname i) "" then Some (Object name (man i) (cur (wfile w))) else g
  | _, _ => g
  end.

(* Every point at which a crash can happen during a history, with the object
   that was last handed to Store by then. *)
Fixpoint points (g : option object) (w : world) (l : list event) : list (option object * world) :=
  (g, w) ::
  match l with
  | [] => []
  | e :: t => map (pair (offer e w g)) (between e w) ++ points (offer e w g) (after e w) t
  end.

(* A file holds an object: its manifest loads and is the object's, and the
   stack, globals and memory are the object's. *)
Definition holds (g : Z -> Z) (ob : object) : Prop :=
  load_manifest g = Ok (o_man ob) /\
  forall o, 0 <= o < instManifestOffset -> g o = o_body ob o.

(* Values of the Go types, and at most manifest.MaxBreakpoints breakpoints. *)
Definition u32_ok (x : Z) : Prop := 0 <= x < 2 ^ 32.
Definition u64_ok (x : Z) : Prop := 0 <= x < 2 ^ 64.
Definition s32_ok (x : Z) : Prop := - 2 ^ 31 <= x < 2 ^ 31.
Definition func_valid (o : option func) : Prop :=
  match o with Some f => u32_ok (f_index f) /\ u32_ok (f_addr f) | None => True end.
Definition snap_valid (o : option snap) : Prop :=
  match o with
  | Some s => u64_ok (s_flags s) /\ s32_ok (s_trap s) /\ s32_ok (s_result s) /\ u64_ok (s_time s) /\
              Forall u64_ok (s_breaks s) /\ (length (s_breaks s) <= 100)%nat
  | None => True
  end.
Definition man_valid (m : iman) : Prop :=
  u64_ok (m_text m) /\ u32_ok (m_stack_size m) /\ u32_ok (m_stack_usage m) /\ u32_ok (m_globals m) /\
  u32_ok (m_memory m) /\ u32_ok (m_max_memory m) /\ u32_ok (m_init m) /\
  func_valid (m_start m) /\ func_valid (m_entry m) /\ snap_valid (m_snap m).
Definition content_valid (body : Z -> Z) : Prop := forall o, is_byte (body o).
(* A directory in which the new file has no entry. *)
Definition dir_valid (d : dir) : Prop :=
  forall n, In (cur d n) (disk d n) /\ ~ In (Some me) (disk d n).

(* Event arguments are of their Go types, and no fdatasync or unlink call on
   behalf of this instance fails.  (Writes and links may fail, and so may the
   syncs done on behalf of others.) *)
Definition no_fault (f : faults) : Prop := f_sync f = false /\ f_unlink f = false /\ f_dirsync f = false.
Definition clean (e : event) : Prop :=
  match e with
  | EStore _ f | EUnstore f | EBegin f => no_fault f
  | ESetTrap x | ESetResult x => s32_ok x
  | ESetBreakpoints l => Forall u64_ok l /\ (length l <= 100)%nat
  | _ => True
  end.
Definition takes_down (e : event) : bool := match e with EUnstore _ | EBegin _ => true | _ => false end.
Definition is_store (e : event) : bool := match e with EStore _ _ => true | _ => false end.
Definition is_setter (e : event) : bool :=
  match e with ESetFinal | ESetDebugInfo _ | ESetTrap _ | ESetResult _ | ESetBreakpoints _ | ECheck => true | _ => false end.
