(* BuildSpec.v: which uploaded modules are acceptable as far as the order and presence of
   snapshot sections is concerned, as a grammar. *)
From Verif Require Import Build.

(* The ids of the standard sections, in order. *)
Definition ids (l : list section) : list Z :=
  flat_map (fun s => match s with Std id _ => [id] | Custom _ => [] end) l.

(* The gate.* sections, in order. *)
Definition gates (l : list section) : list custom :=
  flat_map (fun s => match s with Custom COther => [] | Custom c => [c] | Std _ _ => [] end) l.

(* Strictly increasing and above a bound. *)
Fixpoint above (n : Z) (l : list Z) : Prop :=
  match l with
  | [] => True
  | x :: t => n < x /\ above x t
  end.

Definition opt {A} (o : option A) : list A := match o with Some x => [x] | None => [] end.

(* The module is: initial sections, code section, custom sections, data section, custom
   sections.  (Custom sections belong to the initial ones if there is no code section, and
   to the ones after the code section if there is no data section.) *)
Record shape (l : list section) := {
  initial : list section; code : list section; middle : list section; data : list section; tail : list section;
  shape_eq : l = initial ++ code ++ middle ++ data ++ tail;
  shape_initial : above 0 (ids initial) /\ Forall (fun i => i < 10) (ids initial);
  shape_code : code = [] \/ exists n, code = [Std 10 n];
  shape_middle : ids middle = [] /\ (code = [] -> middle = []);
  shape_data : data = [] \/ exists n, data = [Std 11 n];
  shape_tail : ids tail = [] /\ (data = [] -> tail = [])
}.

(* Acceptable: a gate.snapshot section at most once, before the code section or between the
   code and data sections; the export section possibly wrapped, but then only after the
   gate.snapshot section, exactly filling the wrapper, and without an entry function being
   requested; a gate.buffer section and a gate.stack section at most once each, in this
   order, between the code and data sections and after the gate.snapshot section; nothing
   of the kind after that.  Contents must be readable; a stack must fit; and with a stack
   there can be no entry function.  The breakpoints are checked against the code if the
   gate.snapshot section comes before it. *)
Definition acceptable (p : params) (l : list section) : Prop :=
  exists (s : shape l) (snap1 snap2 : option (list Z)) (wrap : option Z) (buf : bool) (stack : option Z),
    gates (initial l s) = opt (option_map (CSnapshot true) snap1) ++ opt (option_map CExport wrap) /\
    gates (middle l s) = opt (option_map (CSnapshot true) snap2) ++ (if buf then [CBuffer true] else []) ++
      opt (option_map (fun n => CStack n true) stack) /\
    gates (tail l s) = [] /\
    (* at most one snapshot *)
    (snap1 = None \/ snap2 = None) /\
    (* the other sections only after the snapshot *)
    (wrap <> None -> snap1 <> None) /\
    (buf = true \/ stack <> None -> snap1 <> None \/ snap2 <> None) /\
    (* the wrapper contains the export section *)
    (forall n, wrap = Some n -> 2 <= n /\ exists a c, initial l s = a ++ Custom (CExport n) :: Std 7 n :: c) /\
    (* the entry function *)
    (if wrap then entryName p = false else exists e, entryFound p = Some e /\ (stack <> None -> e = false)) /\
    (* the stack *)
    match stack with
    | Some n => n <= (stackSize p mod 2 ^ 32 - (64 + 4832 * 2 + 240)) mod 2 ^ 32 /\ 64 + 4832 * 2 + 240 + n <= stackSize p
    | None => 64 + 4832 * 2 + 240 <= stackSize p
    end /\
    (* the breakpoints *)
    match snap1 with
    | Some bps => Forall (fun o => o < 2 ^ 32 /\ instruction p o = true) bps
    | None => True
    end.
