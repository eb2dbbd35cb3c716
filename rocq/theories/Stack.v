(* Stack.v: model of image/stack.go: conversion of call stacks between the
   native form (return addresses) and the portable form (call site indexes).

   The call map and its searches are from gate.computer/wag/object, which is not
   in the repository: FindCall finds the call site with the given return address
   and the function it is in (the last one whose address is not above it), FindFunc
   the function with the given address.  IsEntryFuncType is a flag of a type. *)
From Verif Require Export Base.

(* wag: wa.FuncType, object.CallMap (CallSites: RetAddr and StackOffset), and
   the module's types and function type indexes. *)
Record ftype := FType { params : nat; entry_type : bool }.
Record code := Code { sites : list (Z * Z); funcs : list Z; types : list ftype; ftypes : list nat }.

Fixpoint find_site (l : list (Z * Z)) (i : nat) (ret : Z) : option (nat * Z) :=
  match l with
  | [] => None
  | (r, off) :: t => if r =? ret then Some (i, off) else find_site t (S i) ret
  end.
(* whether the address is in the init routine, which precedes the functions *)
Definition in_init (c : code) (ret : Z) : bool :=
  match funcs c with [] => true | a :: _ => ret <? a end.
(* index of the function which the address is in *)
Definition func_index (c : code) (ret : Z) : nat := length (filter (fun a => a <=? ret) (funcs c)) - 1.
Fixpoint find_func (l : list Z) (i : nat) (addr : Z) : option nat :=
  match l with [] => None | a :: t => if a =? addr then Some i else find_func t (S i) addr end.

Definition maxUint32 : Z := 2 ^ 32 - 1.
Definition maxUint64 : Z := 2 ^ 64 - 1.

(* stack.go:23-45 putInitStack, with the function indexes; the constant call index 0 and
   offset 16 *)
Definition putInitStack (start entry : option Z) : bytes :=
  let index o := match o with Some i => i | None => maxUint64 end in
  le 8 (16 * 2 ^ 32) ++ le 8 (index start) ++ le 8 (index entry).

(* stack.go:64-110: the words written, the init call site's stack offset, and the rest of
   the native stack.  The portable buffer is as long as the native one and their slices
   advance together (they may be the same buffer), so slicing either beyond its end is a
   panic.  Each iteration takes 8 bytes, so the length is enough fuel. *)
Fixpoint export_loop (fuel : nat) (c : code) (textAddr : Z) (native : bytes) : res (bytes * Z * bytes) :=
  match fuel, native with
  | _, [] => Err
  | O, _ => Err
  | S k, _ =>
      do absRetAddr <- get_le 0 8 native;
      let native := skipn 8 native in
      let retAddr := u64 (absRetAddr - textAddr) in
      if retAddr >? maxUint32 then Err
      else
        match find_site (sites c) 0 retAddr with
        | None => Err
        | Some (callIndex, stackOffset) =>
            let w := le 8 (Z.lor (u64 (Z.shiftl (u64 stackOffset) 32)) (Z.of_nat callIndex)) in
            if in_init c retAddr then Ok (w, stackOffset, native)
            else if (stackOffset =? 0) || negb (Z.land stackOffset 7 =? 0) then Err
            else if (stackOffset - 8 <? 0) || (stackOffset - 8 >? len native) then Panic
            else
              let n := Z.to_nat (stackOffset - 8) in
              do ' (p, initOffset, rest) <- export_loop k c textAddr (skipn n native);
              Ok (w ++ firstn n native ++ p, initOffset, rest)
        end
  end.

(* stack.go:48-151 exportStack *)
Definition exportStack (c : code) (textAddr : Z) (native : bytes) : res bytes :=
  if (len native =? 0) || negb (Z.land (len native) 7 =? 0) then Err
  else
    do ' (p, initStackOffset, native) <- export_loop (length native) c textAddr native;
    do ' (w, native) <-
      (if initStackOffset =? 8 then
         do funcAddr <- get_le 0 8 native;
         let funcIndex :=
           if funcAddr =? 0 then maxUint32
           else match find_func (funcs c) 0 (u32 funcAddr) with Some i => u32 (Z.of_nat i) | None => maxUint32 end in
         Ok (le 8 funcIndex, skipn 8 native)
       else if initStackOffset =? 0 then Ok ([], native)
       else Err);
    match native with [] => Ok (p ++ w) | _ => Err end.

(* stack.go:163-221: the words written, the init call site's stack offset, the number of
   parameters of the outermost function, and the rest of the buffer. *)
Fixpoint import_loop (fuel : nat) (c : code) (textAddr : Z) (minVars : nat) (buf : bytes) : res (bytes * Z * nat * bytes) :=
  match fuel, buf with
  | _, [] => Err
  | O, _ => Err
  | S k, _ =>
      do pair <- get_le 0 8 buf;
      let callIndex := u32 pair in
      if callIndex >=? u32 (len (sites c)) then Err
      else
        let ' (retAddr, stackOffset) := nth (Z.to_nat callIndex) (sites c) (0, 0) in
        if negb (s32 (Z.shiftr pair 32) =? stackOffset) then Err
        else
          let w := le 8 (u64 (textAddr + retAddr)) in
          let buf := skipn 8 buf in
          if in_init c retAddr then Ok (w, stackOffset, minVars, buf)
          else if negb (Z.land stackOffset 7 =? 0) then Err
          else if stackOffset - 8 <? Z.of_nat minVars * 8 then Err
          else if stackOffset - 8 >? len buf then Panic
          else
            let n := Z.to_nat (stackOffset - 8) in
            match find_site (sites c) 0 retAddr with
            | None => Err
            | Some (callIndexAgain, stackOffsetAgain) =>
                if negb (Z.of_nat callIndexAgain =? callIndex) || negb (stackOffsetAgain =? stackOffset) then Err
                else
                  match nth_error (ftypes c) (func_index c retAddr) with
                  | None => Panic
                  | Some t =>
                      match nth_error (types c) t with
                      | None => Panic
                      | Some sig =>
                          do ' (p, initOffset, vars, rest) <- import_loop k c textAddr (params sig) (skipn n buf);
                          Ok (w ++ firstn n buf ++ p, initOffset, vars, rest)
                      end
                  end
            end
  end.

(* stack.go:154-261 importStack: the converted buffer *)
Definition importStack (c : code) (textAddr : Z) (buf : bytes) : res bytes :=
  if (len buf =? 0) || negb (Z.land (len buf) 7 =? 0) then Err
  else
    do ' (p, initStackOffset, minVars, buf) <- import_loop (length buf) c textAddr 0 buf;
    if Nat.ltb 0 minVars then Err
    else
      do ' (w, buf) <-
        (if initStackOffset =? 8 then
           do funcIndex <- get_le 0 4 buf;
           do funcAddr <-
             (if negb (funcIndex =? maxUint32) then
                if funcIndex >=? u32 (len (funcs c)) then Err
                else
                  match nth_error (ftypes c) (Z.to_nat funcIndex) with
                  | None => Panic
                  | Some t =>
                      match nth_error (types c) t with
                      | None => Panic
                      | Some sig => if entry_type sig then Ok (nth (Z.to_nat funcIndex) (funcs c) 0) else Err
                      end
                  end
              else Ok 0);
           Ok (le 8 funcAddr, skipn 8 buf)
         else if initStackOffset =? 0 then Ok ([], buf)
         else Err);
      match buf with [] => Ok (p ++ w) | _ => Err end.
