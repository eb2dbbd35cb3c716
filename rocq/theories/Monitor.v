(* Monitor.v: model of server/monitor/monitor.go.  The loop goroutine, any number
   of callers of the monitor function, and any number of subscriber channels. *)
From Verif Require Export Base.

(* What update (monitor.go:159-172) makes of an event; Item.Event may be nil. *)
Inductive kind := KProgram | KLink | KCreate | KDelete | KOther | KNil.
Record item := Item { ikind : kind; inum : nat }.
(* monitor State (monitor.pb): ProgramsLoaded, ProgramLinks, Instances *)
Definition counters := (Z * Z * Z)%type.

(* monitor.go:159-172: s is a pointer; a counted event dereferences it. *)
Definition update (c : option counters) (k : kind) : res (option counters) :=
  match k with
  | KOther | KNil => Ok c
  | _ => match c with
         | None => Panic
         | Some (p, l, i) =>
             Ok (Some (match k with
                       | KProgram => (p + 1, l, i)
                       | KLink => (p, l + 1, i)
                       | KCreate => (p, l, i + 1)
                       | KDelete => (p, l, i - 1)
                       | _ => (p, l, i)
                       end))
         end
  end.

Inductive sstat := Live | Doomed | Closed.   (* in subs; in subs and killed; closed *)
Record sub := Sub {
  scap : nat;             (* capacity of the channel *)
  sq : list item;         (* in the channel *)
  sgot : list item;       (* ghost: all the items ever put to the channel *)
  start : nat;            (* ghost: number of items processed before the subscription *)
  sstate : sstat;
  pend : bool;            (* not visited yet by the range loop at monitor.go:126 *)
}.

Inductive phase :=
| Idle                    (* monitor.go:117 *)
| Deliver (i : item) (cur : option nat)   (* lines 126-134; in the select for cur *)
| Answer (gone : bool)    (* line 144; whether the subscriber has stopped waiting *)
| Stopped                 (* line 151 *)
| Crashed.

Record mon := Mon {
  bufsize : nat;
  items : list item;      (* in s.items *)
  kills : list item;      (* callers blocked at line 103 *)
  sends : list item;      (* callers blocked at line 105 *)
  current : option counters;
  subs : list sub;        (* all channels ever subscribed *)
  ph : phase;
  mdone : bool;
  accepted : list item;   (* ghost: items put to s.items, in order *)
  log : list item;        (* ghost: items taken by the loop, in order *)
}.

(* monitor.go:42-64 New: current is not set. *)
Definition New (bufsize : nat) : mon := Mon bufsize [] [] [] None [] Idle false [] [].

Inductive action :=
| AEvent (i : item)            (* a monitor call begins, lines 95-102 *)
| ASent (n : nat)              (* the nth caller blocked at line 105 gets through *)
| AGiveUp                      (* done: all blocked callers return *)
| ATake                        (* line 118-124 *)
| APick (s : nat)              (* the range loop comes to channel s *)
| APut                         (* line 128, room in the channel *)
| AHand                        (* line 128, directly to a reader that waits *)
| AKill (n : nat)              (* line 131: the nth caller blocked at line 103 *)
| AFinish                      (* lines 136-139 *)
| ARead (s : nat)              (* a subscriber reads its channel *)
| ASubscribe (cap : nat)       (* lines 142-144 with a new channel *)
| AWaitOver                    (* line 74-76: the subscriber's context ends *)
| AAnswer                      (* line 144 done *)
| AUnsubscribe (s : nat)       (* lines 145-148 *)
| ADone                        (* the monitor context ends *)
| AStop.                       (* line 150 *)

Definition set_subs (m : mon) l := Mon (bufsize m) (items m) (kills m) (sends m) (current m) l (ph m) (mdone m) (accepted m) (log m).
Definition set_ph (m : mon) p := Mon (bufsize m) (items m) (kills m) (sends m) (current m) (subs m) p (mdone m) (accepted m) (log m).

Fixpoint upd {A} (n : nat) (f : A -> A) (l : list A) : list A :=
  match l, n with
  | [], _ => []
  | x :: t, O => f x :: t
  | x :: t, S n => x :: upd n f t
  end.
Fixpoint drop_nth {A} (n : nat) (l : list A) : list A :=
  match l, n with [], _ => [] | _ :: t, O => t | x :: t, S n => x :: drop_nth n t end.

Definition mark (x : sub) : sub :=
  Sub (scap x) (sq x) (sgot x) (start x) (sstate x) (match sstate x with Live => true | _ => false end).
Definition visited (x : sub) : sub := Sub (scap x) (sq x) (sgot x) (start x) (sstate x) false.
Definition put (i : item) (x : sub) : sub := Sub (scap x) (sq x ++ [i]) (sgot x ++ [i]) (start x) (sstate x) false.
Definition hand (i : item) (x : sub) : sub := Sub (scap x) [] (sgot x ++ [i]) (start x) (sstate x) false.
Definition doom (x : sub) : sub := Sub (scap x) (sq x) (sgot x) (start x) Doomed false.
Definition close (x : sub) : sub := Sub (scap x) (sq x) (sgot x) (start x) Closed (pend x).
Definition close_doomed (x : sub) : sub := match sstate x with Doomed => close x | _ => x end.
Definition read1 (x : sub) : sub := Sub (scap x) (skipn 1 (sq x)) (sgot x) (start x) (sstate x) (pend x).

Definition step (m : mon) (a : action) : option mon :=
  match a with
  | AEvent i =>
      match ph m with Crashed => None | _ =>
        if Nat.ltb (length (items m)) (bufsize m)
        then Some (Mon (bufsize m) (items m ++ [i]) (kills m) (sends m) (current m) (subs m) (ph m) (mdone m) (accepted m ++ [i]) (log m))
        else Some (Mon (bufsize m) (items m) (kills m ++ [i]) (sends m) (current m) (subs m) (ph m) (mdone m) (accepted m) (log m))
      end
  | ASent n =>
      match ph m, nth_error (sends m) n with
      | Crashed, _ | _, None => None
      | _, Some i =>
        if Nat.ltb (length (items m)) (bufsize m)
        then Some (Mon (bufsize m) (items m ++ [i]) (kills m) (drop_nth n (sends m)) (current m) (subs m) (ph m) (mdone m) (accepted m ++ [i]) (log m))
        else None
      end
  | AGiveUp =>
      if mdone m then Some (Mon (bufsize m) (items m) [] [] (current m) (subs m) (ph m) (mdone m) (accepted m) (log m)) else None
  | ATake =>
      match ph m, items m with
      | Idle, i :: t =>
          match update (current m) (ikind i) with
          | Ok c => Some (Mon (bufsize m) t (kills m) (sends m) c (map mark (subs m)) (Deliver i None) (mdone m) (accepted m) (log m ++ [i]))
          | _ => Some (Mon (bufsize m) t (kills m) (sends m) (current m) (subs m) Crashed (mdone m) (accepted m) (log m))
          end
      | _, _ => None
      end
  | APick s =>
      match ph m, nth_error (subs m) s with
      | Deliver i None, Some x => if pend x then Some (set_ph m (Deliver i (Some s))) else None
      | _, _ => None
      end
  | APut =>
      match ph m with
      | Deliver i (Some s) =>
          match nth_error (subs m) s with
          | Some x => if Nat.ltb (length (sq x)) (scap x)
                      then Some (set_ph (set_subs m (upd s (put i) (subs m))) (Deliver i None)) else None
          | None => None
          end
      | _ => None
      end
  | AHand =>
      match ph m with
      | Deliver i (Some s) =>
          match nth_error (subs m) s with
          | Some x => match sq x with
                      | [] => Some (set_ph (set_subs m (upd s (hand i) (subs m))) (Deliver i None))
                      | _ => None end
          | None => None
          end
      | _ => None
      end
  | AKill n =>
      match ph m, nth_error (kills m) n with
      | Deliver i (Some s), Some k =>
          Some (Mon (bufsize m) (items m) (drop_nth n (kills m)) (sends m ++ [k]) (current m)
                    (upd s doom (subs m)) (Deliver i None) (mdone m) (accepted m) (log m))
      | _, _ => None
      end
  | AFinish =>
      match ph m with
      | Deliver i None =>
          if existsb pend (subs m) then None
          else Some (set_ph (set_subs m (map close_doomed (subs m))) Idle)
      | _ => None
      end
  | ARead s => Some (set_subs m (upd s read1 (subs m)))
  | ASubscribe cap =>
      match ph m with
      | Idle => Some (set_ph (set_subs m (subs m ++ [Sub cap [] [] (length (log m)) Live false])) (Answer false))
      | _ => None
      end
  | AWaitOver => match ph m with Answer _ => Some (set_ph m (Answer true)) | _ => None end
  | AAnswer => match ph m with Answer false => Some (set_ph m Idle) | _ => None end
  | AUnsubscribe s =>
      match ph m, nth_error (subs m) s with
      | Idle, Some x =>
          match sstate x with
          | Closed => Some (set_ph m Crashed)   (* close of closed channel *)
          | _ => Some (set_subs m (upd s close (subs m)))
          end
      | _, _ => None
      end
  | ADone => Some (Mon (bufsize m) (items m) (kills m) (sends m) (current m) (subs m) (ph m) true (accepted m) (log m))
  | AStop => match ph m with Idle => if mdone m then Some (set_ph m Stopped) else None | _ => None end
  end.
Fixpoint run (m : mon) (l : list action) : option mon :=
  match l with [] => Some m | a :: t => match step m a with Some m => run m t | None => None end end.
