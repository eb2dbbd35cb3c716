(* Fds.v: file descriptors of the container, the executor and the program's process: internal/container/parent.go (Start),
   internal/container/child/{container,memfd,binary_embed}.go, runtime/executor/executor.c, runtime/loader/loader.c.
   The descriptors which the Go runtime opens for itself are left out (they are closed on exec, and container.go:107-116 checks that
   they aren't in the way), and so are failures other than running out of descriptors. *)
From Verif Require Export Base.

(* Open files.  Input k etc. are those of the kth process that the server creates; Host n is something of the server's own. *)
Inductive obj :=
| StdinPipe | DevNull | Stderr | Control | LoaderBin | ExecutorBin | Cgroup | ProcDir | Epoll
| Input (k : nat) | Output (k : nat) | Group (k : nat) | Pidfd (k : nat)
| Debug (k : nat) | Text (k : nat) | State (k : nat) | Host (n : nat).
(* descriptor, file, close-on-exec *)
Definition table := list (Z * (obj * bool)).
Definition fds (t : table) : list Z := map fst t.
Definition isopen (t : table) (fd : Z) : bool := existsb (Z.eqb fd) (fds t).
Fixpoint lookup (t : table) (fd : Z) : option (obj * bool) :=
  match t with [] => None | (n, x) :: t => if fd =? n then Some x else lookup t fd end.
Definition close (t : table) (fd : Z) : table := filter (fun x => negb (fd =? fst x)) t.
(* the lowest unused descriptor; there is one among the first length t + 1 *)
Fixpoint lowest_from (fuel : nat) (n : Z) (t : table) : Z :=
  match fuel with O => n | S fuel => if isopen t n then lowest_from fuel (n + 1) t else n end.
Definition lowest (t : table) : Z := lowest_from (length t) 0 t.
(* open a file; None: the limit (RLIMIT_NOFILE) has been reached *)
Definition open (limit : Z) (t : table) (o : obj) (cloexec : bool) : option (Z * table) :=
  let fd := lowest t in if fd <? limit then Some (fd, (fd, (o, cloexec)) :: t) else None.
(* dup2 and dup3 of a file that is open as old *)
Definition dup (t : table) (old new : Z) (cloexec : bool) : option table :=
  match lookup t old with Some (o, _) => Some ((new, (o, cloexec)) :: close t new) | None => None end.
Definition set_cloexec (t : table) (fd : Z) : option table :=
  match lookup t fd with Some (o, _) => Some ((fd, (o, true)) :: close t fd) | None => None end.
Definition exec (t : table) : table := filter (fun x => negb (snd (snd x))) t.

Definition obind {A B} (o : option A) (f : A -> option B) : option B := match o with Some x => f x | None => None end.
Notation "'let?' x := r 'in' f" := (obind r (fun x => f)) (at level 200, x pattern, r at level 100, f at level 200).

(** ** Container *)
(* parent.go:46-60: the descriptors of the container's process; binary_dummy.go: the binaries' descriptors are placeholders.
   inherited: descriptors of the server which aren't closed on exec, as os/exec doesn't close them either *)
Definition child_table (inherited : table) : table :=
  [(0, (StdinPipe, false)); (1, (DevNull, false)); (2, (Stderr, false)); (3, (Control, false));
   (4, (DevNull, false)); (5, (DevNull, false)); (6, (Cgroup, false))] ++ inherited.
(* memfd.go *)
Definition memfd_dup (t : table) (o : obj) (asfd : Z) (cloexec : bool) : option table :=
  let? (fd, t) := open 1048576 t o true in let? t := dup t fd asfd cloexec in Some (close t fd).
(* binary_embed.go:19-29 *)
Definition setupBinaries (t : table) : option table :=
  let? t := memfd_dup t ExecutorBin 5 true in memfd_dup t LoaderBin 4 false.
(* container.go:107-116 *)
Definition openProcPath (t : table) : option table :=
  let? (fd, t) := open 1048576 t ProcDir false in if fd =? 7 then Some t else None.
(* container.go:211-330 childMain, with execveat; not gateruntimedebug *)
Definition child_main (t : table) : option table :=
  let? t := setupBinaries t in
  let? t := dup t 1 0 false in
  let? t := openProcPath t in
  let? t := dup t 1 2 false in
  Some (exec t).

(** ** Executor *)
(* executor.c:633-639, :262 (epoll_create1) *)
Definition NOFILE : Z := 3 + 4 + 1 + 3 + 2 + 16384.
Definition executor_init (t : table) : option table :=
  let? t := set_cloexec t 0 in let? t := set_cloexec t 1 in let? t := set_cloexec t 2 in let? t := set_cloexec t 3 in
  let? t := set_cloexec t 4 in let? t := set_cloexec t 6 in let? t := set_cloexec t 7 in
  let? (_, t) := open NOFILE t Epoll true in Some t.

(* A request to create a process: with or without a cgroup (runtime/executor.go); the others don't matter here, except that suspending
   needs a descriptor for a moment *)
Inductive req := Create (k : nat) (group : bool) | Suspend (k : nat).
Definition rights (r : req) : list obj :=
  match r with Create k true => [Input k; Output k; Group k] | Create k false => [Input k; Output k] | Suspend _ => [] end.
(* recvmmsg with MSG_CMSG_CLOEXEC: opens the files of all messages; None: MSG_CTRUNC *)
Fixpoint open_all (t : table) (l : list obj) : option (list Z * table) :=
  match l with
  | [] => Some ([], t)
  | o :: l => let? (fd, t) := open NOFILE t o true in let? (r, t) := open_all t l in Some (fd :: r, t)
  end.
Fixpoint receive (t : table) (l : list req) : option (list (req * list Z) * table) :=
  match l with
  | [] => Some ([], t)
  | r :: l => let? (n, t) := open_all t (rights r) in let? (m, t) := receive t l in Some ((r, n) :: m, t)
  end.
(* executor.c:79-89 execute_child *)
Definition execute_child (t : table) (n : list Z) : option table :=
  match n with
  | a :: b :: _ => let? t := dup t a 0 false in let? t := dup t b 1 false in Some (exec t)
  | _ => None
  end.
Definition close_all (t : table) (n : list Z) : table := fold_left close n t.
(* live: processes with the executor's pidfds; started: what the processes begin with *)
Record exs := Exs { x_table : table; x_live : list (nat * Z); x_started : list (nat * table) }.
(* executor.c:118-146 create_process, :369-387; :197-222 suspend_process.  None: the executor dies (with all processes) *)
Definition handle (s : exs) (m : req * list Z) : option exs :=
  match m with
  | (Create k _, n) =>
      if existsb (fun x => Nat.eqb (fst x) k) (x_live s) then None (* executor.c:372 *) else
      let? (pidfd, t) := open NOFILE (x_table s) (Pidfd k) true in
      let? child := execute_child (x_table s) n in
      Some (Exs (close_all t n) ((k, pidfd) :: x_live s) ((k, child) :: x_started s))
  | (Suspend _, _) => let? (fd, t) := open NOFILE (x_table s) ProcDir true in Some (Exs (close t fd) (x_live s) (x_started s))
  end.
Fixpoint handle_all (s : exs) (l : list (req * list Z)) : option exs :=
  match l with [] => Some s | m :: l => let? s := handle s m in handle_all s l end.
(* What can happen: a batch of requests is received; a process is reaped (executor.c:488-517) *)
Inductive xstep := Batch (l : list req) | Reap (k : nat).
Definition xdo (s : exs) (x : xstep) : option exs :=
  match x with
  | Batch l => let? (m, t) := receive (x_table s) l in handle_all (Exs t (x_live s) (x_started s)) m
  | Reap k => match find (fun x => Nat.eqb (fst x) k) (x_live s) with
              | None => Some s
              | Some (_, fd) => Some (Exs (close (x_table s) fd) (filter (fun x => negb (Nat.eqb (fst x) k)) (x_live s)) (x_started s))
              end
  end.
Fixpoint xrun (s : exs) (l : list xstep) : option exs :=
  match l with [] => Some s | x :: l => let? s := xdo s x in xrun s l end.
Definition executor_start (inherited : table) : option exs :=
  let? t := child_main (child_table inherited) in let? t := executor_init t in Some (Exs t [] []).

(** ** Loader *)
Definition GATE_LIMIT_NOFILE : Z := 5.
(* loader.c:202-252 receive_info and the closing of text_fd and state_fd in main; process.go:222-243: what is sent *)
Definition load (t : table) (k : nat) (debug : bool) : option table :=
  if debug then
    let? (d, t) := open GATE_LIMIT_NOFILE t (Debug k) true in
    let? (x, t) := open GATE_LIMIT_NOFILE t (Text k) true in
    let? (s, t) := open GATE_LIMIT_NOFILE t (State k) true in
    if d =? 2 then Some (close (close t x) s) else None
  else
    let? (x, t) := open GATE_LIMIT_NOFILE t (Text k) true in
    let? (s, t) := open GATE_LIMIT_NOFILE t (State k) true in
    Some (close (close t x) s).
