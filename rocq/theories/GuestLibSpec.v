(* GuestLibSpec.v: vocabulary for stating what the functions of the guest library do.  Nothing here refers to
   the library's code. *)
From Verif Require Export Wasm.

(* A 32-bit argument *)
Definition is_u32 (x : Z) : Prop := 0 <= x < 2 ^ 32.

(* Memory holds bytes, and is smaller than 4 GiB. *)
Definition guest_ok (s : st) : Prop :=
  (forall a, 0 <= mem s a < 256) /\ 0 <= pages s < 65536 /\
  Forall (fun b => 0 <= b < 256) (w_input (wd s)) /\ Forall (fun b => 0 <= b < 256) (w_random (wd s)) /\
  Forall (Forall (fun b => 0 <= b < 256)) (w_resumes (wd s)).

(* The n vectors (address and length) at address a *)
Definition u32_at (m : Z -> Z) (a : Z) : Z := unle (bytes_at m a 4).
Fixpoint iovs (m : Z -> Z) (a : Z) (n : nat) : list (Z * Z) :=
  match n with
  | O => []
  | S k => (u32_at m a, u32_at m (a + 4)) :: iovs m (a + 8) k
  end.

(* The bytes that the vectors refer to, in order *)
Definition gather (m : Z -> Z) (l : list (Z * Z)) : bytes :=
  concat (map (fun v => bytes_at m (fst v) (Z.to_nat (snd v))) l).

(* Memory after data has been put into the buffers, in order *)
Fixpoint scatter (m : Z -> Z) (l : list (Z * Z)) (d : bytes) : Z -> Z :=
  match l with
  | [] => m
  | (a, n) :: t => scatter (put_bytes m a (firstn (Z.to_nat n) d)) t (skipn (Z.to_nat n) d)
  end.
Definition capacity (l : list (Z * Z)) : Z := fold_right (fun v t => snd v + t) 0 l.

(* Two ranges of addresses have nothing in common. *)
Definition apart (a n b m : Z) : Prop := n = 0 \/ m = 0 \/ a + n <= b \/ b + m <= a.

(* Memory is the same, apart from a range of addresses. *)
Definition same_outside (m m' : Z -> Z) (a n : Z) : Prop := forall x, x < a \/ a + n <= x -> m' x = m x.

(* Nothing but the memory has changed. *)
Definition same_world (s s' : st) : Prop := wd s' = wd s /\ pages s' = pages s.
Definition same (s s' : st) : Prop := same_world s s' /\ mem s' = mem s.

(* WASI error codes *)
Definition ESUCCESS : Z := 0.
Definition EAGAIN_ : Z := 6.
Definition EBADF : Z := 8.
Definition EINVAL : Z := 28.
Definition ENOENT : Z := 44.
Definition ENOTSOCK : Z := 57.
Definition EPERM : Z := 63.
Definition ESPIPE : Z := 70.
Definition ENOTCAPABLE : Z := 76.

(* Data has been written; nothing else in the environment has changed. *)
Definition sends (w w' : world) (d : bytes) : Prop :=
  exists rest, w' = World (w_input w) (w_reads w) rest (w_debugs w) (w_polls w) (w_times w) (w_random w) (w_resumes w) (w_sent w ++ d) (w_debug w).
(* The same for debug output *)
Definition debugs (w w' : world) (d : bytes) : Prop :=
  exists rest, w' = World (w_input w) (w_reads w) (w_writes w) rest (w_polls w) (w_times w) (w_random w) (w_resumes w) (w_sent w) (w_debug w ++ d).
(* Data has been read from the beginning of the input. *)
Definition receives (w w' : world) (d : bytes) : Prop :=
  exists rest input, w_input w = d ++ input /\
  w' = World input rest (w_writes w) (w_debugs w) (w_polls w) (w_times w) (w_random w) (w_resumes w) (w_sent w) (w_debug w).

(* d is a beginning of l. *)
Definition prefix_of (d l : bytes) : Prop := exists c, (c <= length l)%nat /\ d = firstn c l.

(* The kernel takes everything that is written. *)
Definition all_accepted (w : world) : Prop := Forall (fun r => 2 ^ 32 <= r) (w_writes w).
(* The kernel gives everything that there is, up to what is asked for. *)
Definition all_available (w : world) : Prop := Forall (fun r => 2 ^ 32 <= r) (w_reads w).
(* The kernel doesn't ignore debug output. *)
Definition debug_works (w : world) : Prop := Forall (fun r => r <> 0) (w_debugs w).

(* The first part of the io function: wait, if flags say so, until there is input, or there is room for output
   and something to send.  Otherwise both are tried (5 = POLLIN | POLLOUT). *)
Definition after_wait (flags nsend : Z) (s : st) : st * out :=
  if Z.land flags 1 =? 0 then (s, Next (Some (Z.lor POLLIN POLLOUT)))
  else rt_poll (w_polls (wd s)) POLLIN (if nsend =? 0 then 0 else POLLOUT) s.
(* Memory after a number of bytes has been stored, unless the pointer is null *)
Definition with_count (m : Z -> Z) (ptr : Z) (d : bytes) : Z -> Z := if ptr =? 0 then m else put_bytes m ptr (le 4 (len d)).

(** ** Events *)

Definition u64_at (m : Z -> Z) (a : Z) : Z := unle (bytes_at m a 8).
Definition u16_at (m : Z -> Z) (a : Z) : Z := unle (bytes_at m a 2).

(* A subscription to a descriptor: user data, type (1 for reading, 2 for writing), descriptor *)
Record sub := Sub { s_user : Z; s_type : Z; s_fd : Z }.
Fixpoint subs (m : Z -> Z) (a : Z) (n : nat) : list sub :=
  match n with
  | O => []
  | S k => Sub (u64_at m a) (m (a + 8)) (u32_at m (a + 16)) :: subs m (a + 56) k
  end.

(* An event: the descriptor is bad, or it is ready for an operation (type, number of bytes). *)
Inductive event := Bad (user : Z) | Ready (user type nbytes : Z).
(* It is an answer to a subscription.  Standard output and error are always ready for writing. *)
Definition answers (e : event) (v : sub) : Prop :=
  match e with
  | Bad u => u = s_user v /\ 3 <= s_fd v /\ s_fd v <> 4
  | Ready u t n => u = s_user v /\ t = s_type v /\ (s_fd v = 4 /\ n = 65536 \/ (s_fd v = 1 \/ s_fd v = 2) /\ t = 2 /\ n = 1)
  end.
(* Memory after an event has been stored: user data, error, type, number of bytes, flags *)
Definition put_event (m : Z -> Z) (a : Z) (e : event) : Z -> Z :=
  match e with
  | Bad u => put_bytes (put_bytes m a (le 8 u)) (a + 8) (le 2 EBADF)
  | Ready u t n =>
      put_bytes (put_bytes (put_bytes (put_bytes (put_bytes m a (le 8 u)) (a + 8) (le 2 0)) (a + 10) (le 1 t)) (a + 16) (le 8 n)) (a + 24) (le 2 0)
  end.
Fixpoint put_events (m : Z -> Z) (a : Z) (l : list event) : Z -> Z :=
  match l with [] => m | e :: t => put_events (put_event m a e) (a + 32) t end.
Definition reads (vs : list sub) : bool := existsb (fun v => (s_fd v =? 4) && (s_type v =? 1)) vs.
Definition writes (vs : list sub) : bool := existsb (fun v => (s_fd v =? 4) && (s_type v =? 2)) vs.

(** ** Random bytes *)

(* The random bytes that will be available, now and after resumptions *)
Definition supply (w : world) : bytes := w_random w ++ concat (w_resumes w).
(* Random bytes have been taken from the beginning of the supply; nothing else has changed. *)
Definition draws (w w' : world) (d : bytes) : Prop :=
  supply w = d ++ supply w' /\
  w' = World (w_input w) (w_reads w) (w_writes w) (w_debugs w) (w_polls w) (w_times w) (w_random w') (w_resumes w') (w_sent w) (w_debug w).

(** ** Stopping *)

(* The program has been stopped for good: it has been resumed as many times as it ever will be. *)
Definition stopped (s s' : st) : Prop :=
  mem s' = mem s /\ pages s' = pages s /\ w_resumes (wd s') = [] /\
  exists r, wd s' = World (w_input (wd s)) (w_reads (wd s)) (w_writes (wd s)) (w_debugs (wd s)) (w_polls (wd s)) (w_times (wd s)) r [] (w_sent (wd s)) (w_debug (wd s)).

(** ** Descriptors *)
Definition valid_fd (fd : Z) : Prop := fd = 0 \/ fd = 1 \/ fd = 2 \/ fd = 4.
Definition RIGHT_FD_READ : Z := 2.
Definition RIGHT_FD_WRITE : Z := 64.
Definition rights (fd : Z) : Z :=
  if fd =? 4 then Z.lor RIGHT_FD_READ RIGHT_FD_WRITE else if (fd =? 1) || (fd =? 2) then RIGHT_FD_WRITE else 0.

(* A string in memory, with the terminating zero *)
Definition string_at (m : Z -> Z) (a : Z) (l : bytes) : Prop := bytes_at m a (length l + 1) = l ++ [0].
