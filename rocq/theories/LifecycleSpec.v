(* LifecycleSpec.v: what C32 says about an instance. *)
From Verif Require Export Lifecycle.

(* What the history (latest first) says about the instance. *)
Inductive life :=
| LNew                     (* not started yet *)
| LRunning
| LStopped (s : status)    (* not running: the status *)
| LResuming                (* not started yet again *)
| LGone                    (* deleted *)
| LFailed.                 (* could not be started *)
Fixpoint life_of (h : list hev) : life :=
  match h with
  | [] => LNew
  | HReady s :: _ | HStop s :: _ => LStopped s
  | HRun :: _ => LRunning
  | HResume _ :: _ => LResuming
  | HGone :: _ => LGone
  | HFail :: _ => LFailed
  | HSnap _ :: t | HWait _ _ _ :: t => life_of t
  end.

Definition suspended (s : status) : Prop := st_state s = StSuspended.
Definition halted (s : status) : Prop := st_state s = Halted.
Definition ended (s : status) : Prop := st_state s = StTerminated \/ st_state s = StKilled.

(* The instance has been resumed after the history was n events long. *)
Definition resumed_since (n : nat) (h : list hev) : Prop := exists f, In (HResume f) (firstn (length h - n) h).

(* An event is right after the history before it. *)
Definition right (h : list hev) (e : hev) : Prop :=
  match e with
  | HReady s => life_of h = LNew /\ (suspended s \/ halted s \/ ended s)
  | HRun | HFail => life_of h = LNew \/ life_of h = LResuming
  | HStop s => life_of h = LRunning /\ (suspended s \/ halted s \/ ended s)
  | HResume f => exists s, life_of h = LStopped s /\ (suspended s /\ f = 0 \/ halted s /\ f <> 0)
  | HGone => exists s, life_of h = LStopped s
  | HSnap s => life_of h = LStopped s
  | HWait n gone s =>
      match life_of h with
      | LNew => st_state s = Nonexistent
      | LRunning | LResuming => st_state s = Running /\ (gone = true \/ resumed_since n h)
      | LStopped s' => s = s'
      | LGone => suspended s \/ halted s \/ ended s
      | LFailed => True
      end
  end.
Fixpoint all_right (h : list hev) : Prop :=
  match h with [] => True | e :: t => right t e /\ all_right t end.

(* The runs of the instance: requests that are starting or driving it. *)
Definition drives (g : stage) : bool := match g with SStart | SServe | SFinish _ => true | _ => false end.
Definition drivers (s : st) : list stage := filter drives (threads s).
