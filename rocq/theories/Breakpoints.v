(* Breakpoints.v: model of the debug configuration of instances:
   server/instance.go _debug and instanceRebuild.apply, server/server.go
   DebugInstance, server/search.go and internal/manifest/sort.go. *)
From Verif Require Export Base.

(* A Go slice of uint64: None is the nil slice (reflect.DeepEqual tells it
   from an empty one). *)
Definition slc := option (list Z).
Definition elems (s : slc) : list Z := match s with Some l => l | None => [] end.
Fixpoint list_eqb (a b : list Z) : bool :=
  match a, b with
  | [], [] => true
  | x :: a, y :: b => (x =? y) && list_eqb a b
  | _, _ => false
  end.
(* reflect.DeepEqual on []uint64 *)
Definition deep_equal (a b : slc) : bool :=
  match a, b with None, None => true | Some a, Some b => list_eqb a b | _, _ => false end.

(* sort.Search of the Go library (sort/search.go): binary search over [0,n) *)
Fixpoint go_search (fuel : nat) (f : nat -> bool) (i j : nat) : nat :=
  match fuel with
  | O => i
  | S k =>
      if Nat.ltb i j then
        let h := Nat.div2 (i + j) in
        if negb (f h) then go_search k f (S h) j else go_search k f i h
      else i
  end.
(* server/search.go:11-15 *)
Definition searchUint64 (a : list Z) (x : Z) : nat :=
  go_search (length a) (fun i => nth i a 0 >=? x) 0 (length a).

(* internal/manifest/sort.go:17-29.  sort.Sort of integers is modelled by
   insertion sort: both give the one sorted permutation. *)
Fixpoint insert (x : Z) (l : list Z) : list Z :=
  match l with
  | [] => [x]
  | y :: t => if x <=? y then x :: l else y :: insert x t
  end.
Fixpoint isort (l : list Z) : list Z := match l with [] => [] | x :: t => insert x (isort t) end.
(* for i := 1; i < len(a); { if a[i-1] == a[i] { a = append(a[:i-1], a[i:]...) } else { i++ } } *)
Fixpoint dedup (fuel : nat) (a : list Z) (i : nat) : list Z :=
  match fuel with
  | O => a
  | S k =>
      if Nat.ltb i (length a) then
        if nth (i - 1) a 0 =? nth i a 0
        then dedup k (firstn (i - 1) a ++ skipn i a) i
        else dedup k a (S i)
      else a
  end.
Definition SortDedup (a : slc) : slc :=
  match a with None => None | Some l => Some (dedup (length l) (isort l) 1) end.

(* internal/manifest/manifest.go:13 *)
Definition MaxBreakpoints : Z := 100.

Inductive dop := ConfigGet | ConfigSet | ConfigUnion | ConfigComplement | ReadGlobals | ReadMemory | ReadStack | Unsupported.
(* api.DebugRequest: Op and the Config pointer (nil: None). *)
Record dreq := Dreq { d_op : dop; d_config : option (bool * slc) }.

(* The instance: image flags and breakpoints, State == RUNNING, altProgImage != nil. *)
Record inst := Inst { i_info : bool; i_breaks : slc; i_running : bool; i_alt : bool }.
(* The program image's man.Snapshot: nil unless the module is a snapshot
   (image/build.go:311-316). *)
Definition prog := option (bool * slc).

(* A rebuild in progress (the instance lock is not held): instanceRebuild's
   oldConfig, newConfig, and the request it is for. *)
Record pending := Pend { p_req : dreq; p_old : bool * slc; p_new : bool * slc }.

(* image/instance.go:264-277: an equal list keeps the old slice. *)
Definition set_breaks (old new : slc) : slc := if list_eqb (elems old) (elems new) then old else new.

(* server/instance.go:587-593 *)
Fixpoint union_loop (req : list Z) (breaks : list Z) (modified : bool) : list Z * bool :=
  match req with
  | [] => (breaks, modified)
  | x :: t =>
      let i := searchUint64 breaks x in
      if Nat.eqb i (length breaks) || negb (nth i breaks 0 =? x)
      then union_loop t (firstn i breaks ++ [x] ++ skipn i breaks) true
      else union_loop t breaks modified
  end.
(* server/instance.go:605-611 *)
Fixpoint complement_loop (req : list Z) (breaks : list Z) (modified : bool) : list Z * bool :=
  match req with
  | [] => (breaks, modified)
  | x :: t =>
      let i := searchUint64 breaks x in
      if Nat.ltb i (length breaks) && (nth i breaks 0 =? x)
      then complement_loop t (firstn i breaks ++ skipn (S i) breaks) true
      else complement_loop t breaks modified
  end.

(* server/instance.go:555-629: the new configuration and whether it was
   modified.  Config pointer nil: GetConfig() returns nil and config.Breakpoints
   is a nil dereference.  stack_ok: whether ExportStack succeeds. *)
Definition new_config (i : inst) (r : dreq) (stack_ok : bool) : res (bool * slc * bool) :=
  let info := i_info i in
  let breaks := i_breaks i in
  match d_op r with
  | Unsupported => Err
  | ConfigGet => Ok (info, breaks, false)
  | op =>
      if i_running i then Err
      else
        match op, d_config r with
        | ConfigSet, Some (cinfo, cb) =>
            if len (elems cb) >? MaxBreakpoints then Err
            else
              let b := SortDedup cb in
              Ok (cinfo, b, negb (eqb cinfo info) || negb (deep_equal b breaks))
        | ConfigUnion, Some (cinfo, cb) =>
            if len (elems breaks) + len (elems cb) >? MaxBreakpoints then Err
            else
              let m := cinfo && negb info in
              let ' (b, m) := union_loop (elems cb) (elems breaks) m in
              Ok (info || cinfo, Some b, m)
        | ConfigComplement, Some (cinfo, cb) =>
            let m := cinfo && info in
            let ' (b, m) := complement_loop (elems cb) (elems breaks) m in
            Ok (info && negb cinfo, Some b, m)
        | ReadStack, _ => if stack_ok then Ok (info, breaks, false) else Err
        | _, _ => Panic   (* ReadGlobals, ReadMemory: panic("TODO"), which asError rethrows;
                             nil config *)
        end
  end.

(* server/instance.go:537-676 _debug: the instance after it, a rebuild to be
   made, and the configuration in the response. *)
Definition debug (i : inst) (p : prog) (r : dreq) (stack_ok : bool) : res (inst * option pending * (bool * slc)) :=
  do ' (info, breaks, modified) <- new_config i r stack_ok;
  if modified then
    match p with
    | None => Panic      (* prog.man.Snapshot.Flags, image/program.go:32 *)
    | Some (pinfo, pbreaks) =>
        if eqb info pinfo && deep_equal breaks pbreaks then
          let i' := Inst info (set_breaks (i_breaks i) pbreaks) (i_running i) false in
          Ok (i', None, (i_info i', i_breaks i'))
        else Ok (i, Some (Pend r (i_info i, i_breaks i) (info, breaks)), (i_info i, i_breaks i))
    end
  else Ok (i, None, (i_info i, i_breaks i)).

(* server/program.go:193-253 _rebuildProgramImage with build/build.go:193-231:
   an error unless a breakpoint could be set at each offset; settable is the
   compiler's part. *)
Definition rebuild_ok (settable : Z -> bool) (b : slc) : bool :=
  forallb (fun x => (x <=? 4294967295) && settable x) (elems b).

(* server/instance.go:684-714 apply, server.go:997-1000 *)
Definition apply (i : inst) (p : pending) : res (inst * (bool * slc)) :=
  if eqb (i_info i) (fst (p_old p)) && deep_equal (i_breaks i) (snd (p_old p)) then
    let i' := Inst (fst (p_new p)) (set_breaks (i_breaks i) (snd (p_new p))) (i_running i) true in
    Ok (i', (i_info i', i_breaks i'))
  else Err.

(* The instance under concurrent debug requests, runs and stops. *)
Record dsys := Dsys { d_inst : inst; d_pend : list pending }.
Inductive devent :=
| DRequest (r : dreq) (stack_ok : bool)   (* _debug; a rebuild is started if needed *)
| DApply (k : nat)                        (* the k'th started rebuild is done: applied if it succeeded *)
| DRun                                    (* the instance is resumed *)
| DStop.
(* The system after an event and, if a request completed successfully, the
   configuration in its response. *)
Definition dstep (p : prog) (settable : Z -> bool) (s : dsys) (e : devent) : res (dsys * option (bool * slc)) :=
  match e with
  | DRequest r stack_ok =>
      match debug (d_inst s) p r stack_ok with
      | Ok (i, Some q, _) => Ok (Dsys i (d_pend s ++ [q]), None)
      | Ok (i, None, c) => Ok (Dsys i (d_pend s), Some c)
      | Err => Ok (s, None)
      | Panic => Panic
      end
  | DApply k =>
      match nth_error (d_pend s) k with
      | Some q =>
          if rebuild_ok settable (snd (p_new q)) then
            match apply (d_inst s) q with
            | Ok (i, c) => Ok (Dsys i (d_pend s), Some c)
            | _ => Ok (s, None)
            end
          else Ok (s, None)
      | None => Ok (s, None)
      end
  | DRun => Ok (Dsys (Inst (i_info (d_inst s)) (i_breaks (d_inst s)) true (i_alt (d_inst s))) (d_pend s), None)
  | DStop => Ok (Dsys (Inst (i_info (d_inst s)) (i_breaks (d_inst s)) false (i_alt (d_inst s))) (d_pend s), None)
  end.
Fixpoint drun (p : prog) (settable : Z -> bool) (s : dsys) (es : list devent) : res dsys :=
  match es with
  | [] => Ok s
  | e :: t => do ' (s', _) <- dstep p settable s e; drun p settable s' t
  end.

(* image/build.go:311-316: the program manifest's snapshot from the module's. *)
Definition prog_of (snap : option slc) : prog :=
  match snap with None => None | Some b => Some (false, SortDedup b) end.
(* image/instance.go:146, 358: the instance's is a copy; append([]uint64(nil), b...)
   of an empty list is nil. *)
Definition start_inst (p : prog) : inst :=
  match p with
  | None => Inst false None false false
  | Some (info, b) => Inst info (match elems b with [] => None | l => Some l end) false false
  end.
