(* Prepare.v: model of image/prepare.go: files that are created in advance, by one goroutine for any number of callers. *)
From Verif Require Export Base.

(* prepare.go:116-119 fileResult: files are numbered in order of creation; whether creation succeeded *)
Definition result : Type := nat * bool.
Inductive phase := Working | Draining | Gone.
(* made: all results; held: what the goroutine has; queue: in the channel; given: what calls have returned (None: canceled);
   closed: files that were closed by the goroutine *)
Record prep := Prep {
  p_made : list result; p_held : option result; p_queue : list result; p_phase : phase; p_canceled : bool;
  p_given : list (option result); p_closed : list nat }.
Definition prep_init : prep := Prep [] None [] Working false [] [].
Definition close_ok (r : result) : list nat := if snd r then [fst r] else [].

(* What can happen.  Create: storage.newProgramFile returns; Send: to the channel's buffer; Hand: directly to a waiting caller;
   Cancel: the context is done; Stop: the goroutine notices that; Drain: it receives from the closed channel; Get: a caller's
   receive operation *)
Inductive pstep := PCreate (ok : bool) | PSend | PHand | PCancel | PStop | PDrain | PGet.
(* prepare.go:38-61 preparePrograms, :91-114 prepareInstances, :26-36 newProgramFile, :79-89 newInstanceFile.  cap is the channel's
   buffer size.  What can't happen changes nothing. *)
Definition pact (cap : nat) (x : pstep) (s : prep) : prep :=
  let 'Prep made held queue ph c given closed := s in
  match x with
  | PCreate ok => match ph, held with
                  | Working, None => Prep (made ++ [(length made, ok)]) (Some (length made, ok)) queue ph c given closed
                  | _, _ => s end
  | PSend => match ph, held with
             | Working, Some r => if Nat.ltb (length queue) cap then Prep made None (queue ++ [r]) ph c given closed else s
             | _, _ => s end
  | PHand => match ph, held, queue with
             | Working, Some r, [] => Prep made None [] ph c (given ++ [Some r]) closed
             | _, _, _ => s end
  | PCancel => Prep made held queue ph true given closed
  | PStop => match ph, held, c with
             | Working, Some r, true => Prep made None queue Draining c given (closed ++ close_ok r)
             | _, _, _ => s end
  | PDrain => match ph, queue with
              | Draining, [] => Prep made held [] Gone c given closed
              | Draining, r :: q => Prep made held q ph c given (closed ++ close_ok r)
              | _, _ => s end
  | PGet => match queue, ph with
            | r :: q, _ => Prep made held q ph c (given ++ [Some r]) closed
            | [], Working => s
            | [], _ => Prep made held [] ph c (given ++ [None]) closed end
  end.
Definition prun (cap : nat) (l : list pstep) (s : prep) : prep := fold_left (fun s x => pact cap x s) l s.

(* prepare.go:15-16: make(chan fileResult, bufsize-1) *)
Definition prepare_programs (bufsize : Z) : res nat := if bufsize - 1 <? 0 then Panic else Ok (Z.to_nat (bufsize - 1)).
(* prepare.go:65-69 *)
Definition prepare_instances (bufsize : Z) : res nat :=
  let bufsize := if bufsize <=? 0 then 1 else bufsize in
  if bufsize - 1 <? 0 then Panic else Ok (Z.to_nat (bufsize - 1)).
