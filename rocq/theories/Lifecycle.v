(* Lifecycle.v: model of server/instance.go: one instance, and any number of concurrent requests
   on it.

   A step is one critical section of the instance mutex, or what a request does between two of
   them; every interleaving of the steps is a history.  What happens outside of this model
   (whether process resources are available, whether a process starts and how it ends, whether
   storing succeeds, whether a client goes away) is a choice given with the step.  The end of a
   run is computed by [drive] of ExitStatus.v.
   Simplifications: the contents of the image are only the marks of ExitStatus.v; Kill only
   reads the instance (its effect on the process is in how the process ends); rebuilding for
   debugging is only its use of the image; buffers, tags, time resolution and the debug log are
   left out. *)
From Verif Require Export Base ExitStatus.

(* instance.go:108-125 *)
Record inst := Inst {
  ex : bool;                 (* exists *)
  tr : bool;                 (* transient *)
  stt : status;
  img : option marks;        (* image; nil when closed *)
  named : bool;              (* image/instance.go:64: the image is in stored state *)
  proc : bool;               (* process is not nil *)
  svc : bool;                (* services are not nil *)
  ch : nat;                  (* stopped *)
  shut : list nat            (* the channels that have been closed *) }.

(* Events seen by clients, or in the server's event stream. *)
Inductive hev :=
| HReady (s : status)        (* created without a process *)
| HRun                       (* a process has been started *)
| HStop (s : status)         (* it has ended *)
| HResume (f : Z)            (* resumption accepted; f: function, 0 if none *)
| HGone                      (* deleted *)
| HFail                      (* failure to start *)
| HSnap (s : status)         (* snapshot taken in this state *)
| HWait (since : nat) (gone : bool) (s : status). (* Wait returns s; the length of the history when it was called; whether the client went away *)

Inductive stage :=
(* requests *)
| SKill | SSuspend | SInfo | SPersist | SDebug | SDelete
| SResume (f : Z)
| SWait
| SSnapshot
(* under way *)
| SStart                     (* startOrAnnihilate *)
| SServe                     (* process.Serve *)
| SFinish (r : served)       (* drive after Serve *)
| SAlloc (f : Z)             (* ResumeInstance after _checkResume *)
| SDoResume (f : Z)
| SWaiting (since : nat) (c : nat)
| SWaited (since : nat) (gone : bool)
| SSnapWait (c : nat)        (* Snapshot: in Wait *)
| SSnapWaited
| SSnap (resume : bool)      (* _snapshot *)
| SApply                     (* instanceRebuild.apply *)
| SDone.

Record st := St { obj : inst; threads : list stage; hist : list hev }.

Definition set_nth {A} (n : nat) (x : A) (l : list A) : list A := firstn n l ++ x :: skipn (S n) l.
Definition is_running (i : inst) : bool := match st_state (stt i) with Running => true | _ => false end.
Definition closed (i : inst) (c : nat) : bool := existsb (Nat.eqb c) (shut i).

(* close of a closed channel panics *)
Definition close_stopped (i : inst) : res inst :=
  if closed i (ch i) then Panic
  else Ok (Inst (ex i) (tr i) (stt i) (img i) (named i) (proc i) (svc i) (ch i) (ch i :: shut i)).
(* instance.go:211-223 stop; process and services must not be nil *)
Definition stop (i : inst) : res inst :=
  do i <- close_stopped i;
  if negb (proc i) || negb (svc i) then Panic
  else Ok (Inst (ex i) (tr i) (stt i) (img i) (named i) (proc i) false (ch i) (shut i)).
(* instance.go:413-418 doAnnihilate *)
Definition annihilate (i : inst) : res inst :=
  match img i with
  | None => Panic
  | Some _ => Ok (Inst false (tr i) (stt i) None false (proc i) (svc i) (ch i) (shut i))
  end.
Definition with_stt (i : inst) (s : status) : inst := Inst (ex i) (tr i) s (img i) (named i) (proc i) (svc i) (ch i) (shut i).
Definition with_img (i : inst) (m : option marks) : inst := Inst (ex i) (tr i) (stt i) m (named i) (proc i) (svc i) (ch i) (shut i).
Definition with_named (i : inst) (b : bool) : inst := Inst (ex i) (tr i) (stt i) (img i) b (proc i) (svc i) (ch i) (shut i).
Definition with_tr (i : inst) (b : bool) : inst := Inst (ex i) b (stt i) (img i) (named i) (proc i) (svc i) (ch i) (shut i).
Definition with_ex (i : inst) (b : bool) : inst := Inst b (tr i) (stt i) (img i) (named i) (proc i) (svc i) (ch i) (shut i).

(* image/instance.go:153-172 Store, of a coherent image: fails if it is already stored, or for
   some other reason (ok = false) *)
Definition store (i : inst) (ok : bool) : res inst :=
  match img i with
  | None => Panic
  | Some _ => if named i then Err else if ok then Ok (with_named i true) else Err
  end.

Inductive choice :=
| COk | CFail
| CFailLate                                (* fails after BeginMutation *)
| CEnd (r : served)                        (* how Serve ends *)
| CMut (m : mutation) (stored : bool)      (* CheckMutation and storage *)
| CGone.                                   (* the client goes away *)

(* instance.go:153-209 startOrAnnihilate: whether to drive, or an error *)
Inductive started := NoDrive | Drive | Failed.
Definition start (i : inst) (c : choice) : res (inst * started) :=
  if negb (proc i) then
    match store i (match c with COk => true | _ => false end) with
    | Panic => Panic
    | Err => Ok (i, Failed)
    | Ok i =>
        match img i with
        | None => Panic
        | Some m => do i <- close_stopped (with_ex (with_stt i (status_of_image m)) true); Ok (i, NoDrive)
        end
    end
  else
    match img i with
    | None => Panic
    | Some _ =>
        match c with
        | COk => Ok (with_ex (with_stt (with_named i false) (Status Running (st_cause (stt i)) (st_result (stt i)))) true, Drive)
        | CFailLate => do i <- stop (with_named i false); Ok (with_img i None, Failed)
        | _ => do i <- stop i; Ok (with_img i None, Failed)
        end
    end.

(* instance.go:318-338 _resumeCheck *)
Definition resumable (i : inst) (f : Z) : bool :=
  ex i && match st_state (stt i) with
          | StSuspended => f =? 0
          | Halted => negb (f =? 0)
          | _ => false
          end.
(* instance.go:340-357 _doResume *)
Definition do_resume (i : inst) (f : Z) : option inst :=
  if resumable i f
  then Some (Inst (ex i) (tr i) (Status Running 0 0) (img i) (named i) true true (S (ch i)) (shut i))
  else None.

(* instance.go:420-510 drive after Serve, with cleanupFunc; CheckMutation and Store are called
   only if Serve ended without an error *)
Definition finish (i : inst) (r : served) (m : mutation) (ok : bool) : res (inst * status * bool) :=
  match img i with
  | None => Panic
  | Some k =>
      let stored := ok && negb (named i) in
      let ' (s, k') := drive (tr i) r m stored k in
      let storing := negb (sv_err r) && match m with MutErr => false | _ => true end && negb (tr i) && stored in
      do i <- stop (with_stt (with_img (with_named i (named i || storing)) (Some k')) s);
      if tr i then do i <- annihilate i; Ok (i, s, true)
      else Ok (i, s, false)
  end.

Definition goto (s : st) (t : nat) (g : stage) : res st := Ok (St (obj s) (set_nth t g (threads s)) (hist s)).
Definition put (s : st) (i : inst) (t : nat) (g : stage) (h : list hev) : res st := Ok (St i (set_nth t g (threads s)) (h ++ hist s)).

Definition run (s : st) (t : nat) (c : choice) : res st :=
  let i := obj s in
  match nth_error (threads s) t with
  | None => Err
  | Some g =>
      match g with
      (* instance.go:272-279 *)
      | SKill => goto s t SDone
      (* instance.go:282-296 *)
      | SSuspend => put s (if is_running i then with_tr i false else i) t SDone []
      (* instance.go:234-250: the image is used if the instance exists *)
      | SInfo => if negb (ex i) then goto s t SDone else match img i with None => Panic | Some _ => goto s t SDone end
      (* instance.go:513-537 *)
      | SPersist => put s (if ex i then with_tr i false else i) t SDone []
      (* instance.go:539-669 _debug: the image is used if the request is right *)
      | SDebug =>
          match c with
          | CFail => goto s t SDone
          | CGone => if is_running i then goto s t SDone else match img i with None => Panic | Some _ => goto s t SApply end
          | _ => match img i with None => Panic | Some _ => goto s t SDone end
          end
      (* instance.go:677-706 *)
      | SApply => match img i with None => Panic | Some _ => goto s t SDone end
      (* instance.go:398-411 _annihilate *)
      | SDelete =>
          if negb (ex i) || is_running i then goto s t SDone
          else do i <- annihilate i; put s i t SDone [HGone]
      (* server.go:839-871 ResumeInstance, instance.go:311-316 _checkResume *)
      | SResume f => if resumable i f then goto s t (SAlloc f) else goto s t SDone
      | SAlloc f => match c with CFail => goto s t SDone | _ => goto s t (SDoResume f) end
      | SDoResume f =>
          match do_resume i f with
          | None => goto s t SDone
          | Some i => put s i t SStart [HResume f]
          end
      (* server.go:1166-1181 *)
      | SStart =>
          do ' (i, d) <- start i c;
          match d with
          | NoDrive => put s i t SDone [HReady (stt i)]
          | Drive => put s i t SServe [HRun]
          | Failed => put s i t SDone [HFail]
          end
      (* instance.go:456 *)
      | SServe => match c with CEnd r => goto s t (SFinish r) | _ => Err end
      | SFinish r =>
          match c with
          | CMut m ok =>
              do ' (i, x, gone) <- finish i r m ok;
              put s i t SDone ((if gone then [HGone] else []) ++ [HStop x])
          | _ => Err
          end
      (* instance.go:252-270 Wait *)
      | SWait =>
          if is_running i then goto s t (SWaiting (length (hist s)) (ch i))
          else put s i t SDone [HWait (length (hist s)) false (stt i)]
      | SWaiting n k =>
          match c with
          | CGone => goto s t (SWaited n true)
          | _ => if closed i k then goto s t (SWaited n false) else Err
          end
      | SWaited n g => put s i t SDone [HWait n g (stt i)]
      (* server.go:890-918 Snapshot; suspend doesn't modify the instance *)
      | SSnapshot => if is_running i then goto s t (SSnapWait (ch i)) else goto s t (SSnap false)
      | SSnapWait k => if closed i k then goto s t SSnapWaited else Err
      | SSnapWaited => goto s t (SSnap (match st_state (stt i) with StSuspended => true | _ => false end))
      (* instance.go:379-396 _snapshot; then ResumeInstance, without a function *)
      | SSnap b =>
          let next := if b then SResume 0 else SDone in
          if negb (ex i) || is_running i then goto s t next
          else match img i with None => Panic | Some _ => match c with CFail => goto s t next | _ => put s i t next [HSnap (stt i)] end end
      | SDone => Err
      end
  end.

Definition request (g : stage) : bool :=
  match g with
  | SKill | SSuspend | SInfo | SPersist | SDebug | SDelete | SResume _ | SWait | SSnapshot => true
  | _ => false
  end.
Inductive event := ERequest (g : stage) | ERun (t : nat) (c : choice).
Definition step (s : st) (e : event) : res st :=
  match e with
  | ERequest g => if request g then Ok (St (obj s) (threads s ++ [g]) (hist s)) else Err
  | ERun t c => run s t c
  end.
Fixpoint steps (s : st) (l : list event) : res st :=
  match l with [] => Ok s | e :: t => do s' <- step s e; steps s' t end.

(* instance.go:127-143 newInstance, server.go:1256-1307; the thread that launches the instance
   is about to start it.  A process has not been allocated if the instance is created suspended or the
   image is final. *)
Definition launch (transient process : bool) (m : marks) : st :=
  St (Inst false transient (Status Nonexistent 0 0) (Some m) false (process && negb (m_final m)) (process && negb (m_final m)) 0 [])
     [SStart] [].
