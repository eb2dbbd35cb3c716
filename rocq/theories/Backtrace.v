(* Backtrace.v: model of the client's reading of an instance's call stack: cmd/gate/main/debug.go:394-452 traceStack.  The code map, the
   functions' types and FindCall are those of Stack.v; source is the code map's table from return addresses to offsets in the module. *)
From Verif Require Export Stack.

(* stack.Frame of gate.computer/wag/object/stack *)
Record tframe := TFrame { t_func : nat; t_off : Z; t_locals : list Z }.

(* binary.LittleEndian.Uint64(buf[k*8:]) for each k *)
Fixpoint read_slots (buf : bytes) (l : list nat) : res (list Z) :=
  match l with
  | [] => Ok []
  | k :: t => do x <- get_le (8 * k) 8 buf; do r <- read_slots buf t; Ok (x :: r)
  end.

(* debug.go:400-451; its every failure is a panic *)
Fixpoint trace_loop (fuel : nat) (c : code) (source : Z -> Z) (buf : bytes) : res (list tframe) :=
  match fuel, buf with
  | _, [] => Panic                                                               (* 451 *)
  | O, _ => Panic                                                                (* each iteration takes at least 8 bytes *)
  | S k, _ =>
      do pair <- get_le 0 8 buf;
      let callIndex := u32 pair in
      if callIndex >=? u32 (len (sites c)) then Panic                            (* 404 *)
      else
        let ' (retAddr, stackOffset) := nth (Z.to_nat callIndex) (sites c) (0, 0) in
        if negb (s32 (Z.shiftr pair 32) =? stackOffset) then Panic               (* 409 *)
        else if in_init c retAddr then Ok []                                     (* 413 *)
        else if negb (Z.land stackOffset 7 =? 0) || (stackOffset =? 0) then Panic   (* 417-422 *)
        else
          match find_site (sites c) 0 retAddr with
          | None => Panic
          | Some (callIndexAgain, stackOffsetAgain) =>
              if negb (Z.of_nat callIndexAgain =? callIndex) || negb (stackOffsetAgain =? stackOffset) then Panic   (* 424-427 *)
              else if stackOffset <? 0 then Panic                                (* slicing with a negative bound, if not in make, then in 448 *)
              else
                let funcIndex := func_index c retAddr in
                match nth_error (ftypes c) funcIndex with                        (* mod.FuncTypes(): the functions' types *)
                | None => Panic
                | Some t =>
                    match nth_error (types c) t with
                    | None => Panic
                    | Some sig =>
                        let numParams := params sig in
                        let numOthers := (Z.to_nat (stackOffset / 8) - 1)%nat in
                        let numLocals := (numParams + numOthers)%nat in
                        do a <- read_slots buf (map (fun i => numLocals - i + 1)%nat (seq 0 numParams));   (* 434-436 *)
                        do b <- read_slots buf (map (fun i => numOthers - i)%nat (seq 0 numOthers));       (* 438-440 *)
                        if stackOffset >? len buf then Panic
                        else
                          do r <- trace_loop k c source (skipn (Z.to_nat stackOffset) buf);
                          Ok (TFrame funcIndex (source retAddr) (a ++ b) :: r)
                    end
                end
          end
  end.
(* debug.go:394-398 *)
Definition traceStack (c : code) (source : Z -> Z) (buf : bytes) : res (list tframe) :=
  if (len buf =? 0) || negb (Z.land (len buf) 7 =? 0) then Panic else trace_loop (length buf) c source buf.
