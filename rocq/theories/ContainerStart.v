(* ContainerStart.v: model of internal/container/parent.go:28-118 (Start) together with the container's process, which waits for the
   end of its standard input (internal/container/child/container.go:231-235).  Opening files is left out. *)
From Verif Require Export Base.

(* What the parent does about the process after it has been created *)
Inductive conf := ExecutorCgroup | OomScore | IdMaps.
(* runtime/container/config.go, as far as it matters: CgroupConfig.Executor is set; NamespaceConfig.Disabled, SingleUID; Newuidmap
   or Newgidmap is set *)
Record settings := Settings { g_cgroup : bool; g_disabled : bool; g_single : bool; g_newidmap : bool }.
(* parent.go:88-104, cgroup.go:20-23 *)
Definition confs (g : settings) : list conf :=
  (if g_cgroup g then [ExecutorCgroup] else []) ++ [OomScore] ++
  (if negb (g_disabled g) && negb (g_single g) && g_newidmap g then [IdMaps] else []).

Inductive ppc := Configuring (todo : list conf) | Killing | Reaping | Failed | Started | Gone.
Inductive cstate := Waiting | Running | Dead.
(* done: what has been configured; pipe: whether the writing end of the pipe is open; signal: the kernel has yet to deliver the
   parent death signal (Pdeathsig) *)
Record world := World { w_parent : ppc; w_done : list conf; w_pipe : bool; w_child : cstate; w_signal : bool }.
(* parent.go:77-86: cmd.Start has returned *)
Definition world_init (g : settings) : world := World (Configuring (confs g)) [] true Waiting false.

(* The schedule: the parent does the next thing, which succeeds or not; the child looks at its input; the parent is killed (its
   files are closed before the signal is sent to its children); the signal arrives *)
Inductive wstep := Parent (ok : bool) | Child | ParentKilled | Signal.
Definition wdo (w : world) (x : wstep) : world :=
  let 'World p d pipe c s := w in
  match x with
  | Parent ok =>
      match p with
      | Configuring (a :: todo) => if ok then World (Configuring todo) (a :: d) pipe c s else World Killing d pipe c s
      | Configuring [] => (* stdin.Close *) World (if ok then Started else Killing) d false c s
      | Killing => (* deferred functions are run in reverse order: cmd.Process.Kill *) World Reaping d pipe Dead s
      | Reaping => (* cmd.Wait, stdin.Close *) World Failed d false c s
      | Failed | Started | Gone => w
      end
  | Child => match c with Waiting => if pipe then w else World p d pipe Running s | _ => w end
  | ParentKilled => match p with Gone => w | _ => World Gone d false c true end
  | Signal => if s then World p d pipe Dead s else w
  end.
Definition wrun (w : world) (l : list wstep) : world := fold_left wdo l w.
