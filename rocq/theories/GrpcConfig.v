(* GrpcConfig.v: model of the configuration of gRPC services: service/grpc/config/config.go, and service/grpc/executable/executable.go (processes connected by
   socket pairs), with the opening of connections of service/grpc/grpc.go:81-129.
   Simplified: a process is taken to end when it is told to; Wait closes the standard error pipe's read end as does the logger, which appears as one closing;
   the descriptors which exec.Cmd closes on Start (or on its failure) and those which gRPC makes internally are left out; ASCII. *)
From Verif Require Export Cors.

(* What an attempt to connect to a server acquires *)
Inductive resource := Sock1 | Sock2 | Stderr | Process | Client.
Inductive act := Exec (path : bytes) (args : list bytes) | Dial (addr : bytes) (insecure : bool) | Get (r : resource) | Put (r : resource) | Signal | Warn.
(* The first operation that fails: making the socket pair, making the pipe, starting the process, connecting (including the RootClient.Init call) *)
Inductive failing := FPair | FStderr | FStart | FDial | FNone.
Inductive outcome := Opened | Failed | Panicked.

(* executable.go:31-81 Execute *)
Definition execute (f : failing) (path : bytes) (args : list bytes) : list act * outcome :=
  let socks := [Put Sock2; Put Sock1] in                              (* 36-37 *)
  match f with
  | FPair => ([Exec path args], Failed)                               (* 32-35 *)
  | FStderr => ([Exec path args; Get Sock1; Get Sock2] ++ socks, Failed)                                                   (* 43-46 *)
  | FStart => ([Exec path args; Get Sock1; Get Sock2; Get Stderr] ++ [Put Stderr] ++ socks, Failed)                         (* 47-55 *)
  | FDial => ([Exec path args; Get Sock1; Get Sock2; Get Stderr; Get Process] ++ [Signal; Put Process; Put Stderr] ++ socks, Failed)   (* 56-67 *)
  | FNone =>
      let acquired := [Exec path args; Get Sock1; Get Sock2; Get Stderr; Get Process; Get Client] in
      match args with
      | [] => (acquired ++ [Signal; Put Process; Put Stderr] ++ socks, Panicked)                                            (* 71: args[0] *)
      | _ => (acquired ++ socks, Opened)                              (* 71-80 *)
      end
  end.
(* executable.go:84-95 Conn.Close; failed: closing the gRPC connection fails *)
Definition close_process (failed : bool) : list act := Put Client :: (if failed then [Signal] else []) ++ [Put Process; Put Stderr].
(* executable.go:109-122 logErrorOutput: what is logged of a process's output; word: what has been read of the current line *)
Fixpoint log_from (line output : bytes) : list bytes :=
  match output with [] => [] | c :: r => if c =? 10 then (line ++ [c]) :: log_from [] r else log_from (line ++ [c]) r end.
Definition logged (output : bytes) : list bytes := log_from [] output.

(* ---- Init ---- *)
Inductive kind := Executed | Dialed.
(* Acts by attempt; the number of attempts; conns *)
Record state := State { s_log : list (nat * act); s_next : nat; s_conns : list (nat * kind) }.
Definition initial : state := State [] 0 [].
Definition attempt (s : state) (acts : list act) (o : outcome) (k : kind) : state :=
  State (s_log s ++ map (fun a => (s_next s, a)) acts) (S (s_next s))
    (match o with Opened => s_conns s ++ [(s_next s, k)] | _ => s_conns s end).
Definition at_sign : Z := 64.
(* config.go:62-76; w: how an attempt goes *)
Definition command (w : nat -> failing) (c : bytes) (s : state) : state * outcome :=
  match fields c with
  | [] => (s, Panicked)                                               (* 64: args[0] *)
  | path :: rest =>
      match path with
      | [] => (s, Panicked)
      | c0 :: tail =>
          let '(path, args) := if c0 =? at_sign then (tail, rest) else (path, path :: rest) in
          let '(acts, o) := execute (w (s_next s)) path args in (attempt s acts o Executed, o)
      end
  end.
Definition insecure_ : bytes := [105;110;115;101;99;117;114;101].
Definition optional_ : bytes := [111;112;116;105;111;110;97;108].
(* config.go:81-96: insecure, optional *)
Fixpoint options (l : list bytes) (insecure optional : bool) : option (bool * bool) :=
  match l with
  | [] => Some (insecure, optional)
  | o :: r => if text_eqb o insecure_ then options r true optional
              else if text_eqb o optional_ then options r insecure true
              else None
  end.
(* config.go:78-108; grpc.go:109-129 *)
Definition target (w : nat -> failing) (t : bytes) (s : state) : state * outcome :=
  match fields t with
  | [] => (s, Panicked)                                               (* 85: args[1:] *)
  | addr :: opts =>
      match options opts false false with
      | None => (s, Failed)
      | Some (insecure, optional) =>
          match w (s_next s) with
          | FNone => (attempt s [Dial addr insecure; Get Client] Opened Dialed, Opened)
          | _ => if optional then (attempt s [Dial addr insecure; Warn] Failed Dialed, Opened)
                 else (attempt s [Dial addr insecure] Failed Dialed, Failed)
          end
      end
  end.
Fixpoint each (f : bytes -> state -> state * outcome) (l : list bytes) (s : state) : state * outcome :=
  match l with
  | [] => (s, Opened)
  | x :: r => match f x s with (s, Opened) => each f r s | y => y end
  end.
Definition close_conn (failed : nat -> bool) (c : nat * kind) : list (nat * act) :=
  map (fun a => (fst c, a)) (match snd c with Executed => close_process (failed (fst c)) | Dialed => [Put Client] end).
Definition close_all (failed : nat -> bool) (s : state) : state :=
  State (s_log s ++ flat_map (close_conn failed) (s_conns s)) (s_next s) [].
(* config.go:53-113 Conf.Init; failed: whether closing a connection fails *)
Definition init (w : nat -> failing) (failed : nat -> bool) (cmds targets : list bytes) : state * outcome :=
  let '(s, o) := match each (command w) cmds initial with (s, Opened) => each (target w) targets s | y => y end in
  match o with Opened => (s, Opened) | _ => (close_all failed s, o) end.   (* 55-59: the deferred function *)
(* config.go:126-134 Conf.Close; the error is the first one: the number of the attempt *)
Definition close (failed : nat -> bool) (s : state) : state * option nat :=
  (close_all failed s, match filter failed (map fst (s_conns s)) with [] => None | i :: _ => Some i end).
