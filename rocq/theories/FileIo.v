(* FileIo.v: model of internal/file: reference counted files (fileref.go) and
   positioned writes (file.go WriteAt, WriteVecAt). *)
From Verif Require Export Base.

(* ---- fileref.go ---- *)

(* A counted file: the count, and how many times Close has been called. *)
Record cfile := CFile { count : Z; closes : nat }.
(* All files ever made, the Ref values in use by any goroutine (None: the zero
   value Ref{}), and the files whose count was dropped to 0 by an Unref which
   has not called Close yet.  A Ref value is owned by one place: copying it
   without Ref or MustRef is not a use of the API. *)
Record fsys := FSys { files : list cfile; refs : list (option nat); closing : list nat }.

Fixpoint upd {A} (l : list A) (i : nat) (x : A) : list A :=
  match l, i with
  | [], _ => []
  | _ :: t, O => x :: t
  | h :: t, S k => h :: upd t k x
  end.

Inductive fop :=
| FOwn                (* fileref.go:29-36 *)
| FMustRef (k : nat)  (* 39-44, on Ref value k *)
| FRef (k : nat)      (* 47-52 *)
| FUnref (k : nat)    (* 56-69, up to and including the atomic decrement *)
| FClose (j : nat).   (* f.Close() by the j'th Unref that got zero *)

Definition must_ref (s : fsys) (f : nat) : res fsys :=
  match nth_error (files s) f with
  | Some c =>
      let n := s32 (count c + 1) in     (* atomic.AddInt32 *)
      let fs := upd (files s) f (CFile n (closes c)) in
      if n <=? 1 then Panic else Ok (FSys fs (refs s ++ [Some f]) (closing s))
  | None => Panic
  end.

Definition fstep (s : fsys) (o : fop) : res fsys :=
  match o with
  | FOwn => Ok (FSys (files s ++ [CFile 1 0]) (refs s ++ [Some (length (files s))]) (closing s))
  | FMustRef k =>
      match nth_error (refs s) k with
      | Some (Some f) => must_ref s f
      | Some None => Panic      (* nil dereference *)
      | None => Err             (* no such Ref value: not a step *)
      end
  | FRef k =>
      match nth_error (refs s) k with
      | Some (Some f) => must_ref s f
      | Some None => Ok (FSys (files s) (refs s ++ [None]) (closing s))
      | None => Err
      end
  | FUnref k =>
      match nth_error (refs s) k with
      | Some (Some f) =>
          match nth_error (files s) f with
          | Some c =>
              let n := s32 (count c - 1) in
              if n <? 0 then Panic
              else Ok (FSys (upd (files s) f (CFile n (closes c))) (upd (refs s) k None)
                            (if n =? 0 then closing s ++ [f] else closing s))
          | None => Panic
          end
      | Some None => Ok s
      | None => Err
      end
  | FClose j =>
      match nth_error (closing s) j with
      | Some f =>
          match nth_error (files s) f with
          | Some c => Ok (FSys (upd (files s) f (CFile (count c) (S (closes c)))) (refs s) (firstn j (closing s) ++ skipn (S j) (closing s)))
          | None => Panic
          end
      | None => Err
      end
  end.

Fixpoint frun (s : fsys) (os : list fop) : res fsys :=
  match os with [] => Ok s | o :: t => do s' <- fstep s o; frun s' t end.
Definition fstart : fsys := FSys [] [] [].

(* ---- file.go: writing ---- *)

(* What one write system call does: some bytes are written (never more than it
   was given), EAGAIN or EINTR, another error. *)
Inductive kresult := KCount (k : nat) | KAgain | KFail.

(* A written chunk: its offset and bytes. *)
Definition chunk := (Z * bytes)%type.

(* How a function ended: nil, io.EOF or other error, still running (the given
   system call results have been used up), run-time panic. *)
Inductive outcome := WNil | WErr | WRunning | WPanic.

(* file.go:96-119 WriteAt: outcome, n, and what the system calls wrote. *)
Fixpoint write_at (ks : list kresult) (b : bytes) (offset : Z) (n : Z) : outcome * Z * list chunk :=
  match b with
  | [] => (WNil, n, [])
  | _ =>
      match ks with
      | [] => (WRunning, n, [])
      | KCount k :: ks =>
          let k := Nat.min k (length b) in
          if Nat.eqb k 0 then (WErr, n, [])
          else
            let ' (o, n', w) := write_at ks (skipn k b) (offset + Z.of_nat k) (n + Z.of_nat k) in
            (o, n', (offset, firstn k b) :: w)
      | KAgain :: ks => write_at ks b offset n
      | KFail :: _ => (WErr, n, [])
      end
  end.

(* file.go:163-174: the inner loop.  None: bs[0] of an empty slice; Some None:
   return; Some (Some bs): break. *)
Fixpoint advance (bs : list bytes) (n : nat) : option (option (list bytes)) :=
  match bs with
  | [] => None
  | b :: t =>
      if Nat.leb (length b) n then
        let n := (n - length b)%nat in
        if Nat.eqb n 0 && match t with [] => true | _ => false end then Some None
        else advance t n
      else Some (Some (skipn n b :: t))
  end.

(* file.go:125-176 WriteVecAt.  The buffers with elements are given to pwritev2
   (a negative offset: the file's current position, which is where the previous
   call ended). *)
Fixpoint write_vec (ks : list kresult) (bs : list bytes) (offset : Z) : outcome * list chunk :=
  let vec := concat bs in
  match vec with
  | [] => (WNil, [])
  | _ =>
      match ks with
      | [] => (WRunning, [])
      | KCount k :: ks =>
          let k := Nat.min k (length vec) in
          if Nat.eqb k 0 then (WErr, [])
          else
            let offset' := if offset >=? 0 then offset + Z.of_nat k else offset in
            match advance bs k with
            | None => (WPanic, [(offset, firstn k vec)])
            | Some None => (WNil, [(offset, firstn k vec)])
            | Some (Some bs') =>
                let ' (o, w) := write_vec ks bs' offset' in
                (o, (offset, firstn k vec) :: w)
            end
      | KAgain :: ks => write_vec ks bs offset
      | KFail :: _ => (WErr, [])
      end
  end.
Definition WriteVecAt (ks : list kresult) (b0 b1 : bytes) (offset : Z) := write_vec ks [b0; b1] offset.
